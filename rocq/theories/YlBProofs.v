(* Lemmas about the builder of a YANG library. *)
From Verif Require Import Base MapLib YlModel YlSpec YlProofs.

Section Builder.
Variable checker : name -> option N -> option N -> octets -> octets -> list octets -> list octets -> compat.
Variable set_order : list octets -> list octets.
Variable hash : octets -> N.
Notation add_module := (add_module checker set_order).
Notation accept_sub := (accept_sub checker).
Notation add_sub := (add_sub checker).
Notation add_imp_sub := (add_imp_sub checker).
Notation add_import := (add_import checker).
Notation into_builder := (into_builder checker set_order).
Notation extend := (extend checker set_order).

(* ---- everything read for the content id is there ---- *)
Definition tkeys (b : builder) : list name := map fst (b_texts b).
Record whole (b : builder) : Prop := {
  w_m : forall m, In m (b_mods b) -> In (md_name m) (tkeys b) /\ forall s, In s (md_subs m) -> In (sb_name s) (tkeys b);
  w_i : forall n l i, In (n, l) (b_imps b) -> In i l -> In (im_name i) (tkeys b) /\ forall s, In s (im_subs i) -> In (sb_name s) (tkeys b);
  w_s : forall n, In n (map fst (b_subs b)) -> In n (tkeys b) }.
Lemma keys_mset : forall {B} n k (x : B) l, In n (map fst (mset N.eqb k x l)) <-> n = k \/ In n (map fst l).
Proof.
  intros B n k x. induction l as [|[j y] r IH]; cbn; [intuition|]. destruct (k =? j) eqn:E; cbn.
  - replace j with k by lia. intuition.
  - rewrite IH. intuition.
Qed.
Lemma in_mset : forall {B} n (y : B) k x l, In (n, y) (mset N.eqb k x l) -> (n = k /\ y = x) \/ In (n, y) l.
Proof.
  intros B n y k x. induction l as [|[j z] r IH]; cbn; [intros [H|[]]; inv H; left; split; reflexivity|].
  destruct (k =? j) eqn:E; cbn; intros [H|H].
  - inv H. left. split; [lia|reflexivity].
  - right. right. exact H.
  - right. left. exact H.
  - destruct (IH H) as [A|A]; [left; exact A|right; right; exact A].
Qed.
Lemma in_put_mod : forall m x l, In x (put_mod m l) -> x = m \/ In x l.
Proof.
  intros m x. induction l as [|y r IH]; cbn; [intros [H|[]]; left; symmetry; exact H|].
  destruct (md_name y =? md_name m); cbn; intros [H|H].
  - left. symmetry. exact H.
  - right. right. exact H.
  - right. left. exact H.
  - destruct (IH H) as [A|A]; [left; exact A|right; right; exact A].
Qed.
Lemma whole_build : forall b, whole b -> exists L, build hash b = Ok L.
Proof.
  intros b [W1 W2 _]. apply build_ok. intros n I. unfold read_names in I. apply in_app_or in I. destruct I as [I|I].
  - apply in_flat_map in I. destruct I as [m [I J]]. destruct (W1 m I) as [A B]. apply in_snoc in J. destruct J as [J|J]; [|subst; exact A].
    apply in_map_iff in J. destruct J as [s [<- J]]. exact (B s J).
  - apply in_flat_map in I. destruct I as [i [I J]]. apply in_flat_map in I. destruct I as [[k l] [I I']].
    destruct (W2 k l i I I') as [A B]. apply in_snoc in J. destruct J as [J|J]; [|subst; exact A].
    apply in_map_iff in J. destruct J as [s [<- J]]. exact (B s J).
Qed.

(* one submodule *)
Lemma accept_sub_keeps : forall s t b b' a, accept_sub s t b = (b', Ok a) ->
  (forall n, In n (map fst (b_subs b)) -> In n (tkeys b)) ->
  b_mods b' = b_mods b /\ b_imps b' = b_imps b /\ incl (tkeys b) (tkeys b') /\ In (sb_name s) (tkeys b') /\
  (forall n, In n (map fst (b_subs b')) -> In n (tkeys b')).
Proof.
  intros s t b b' a H W.
  assert (P : forall c, c = put_sub s t b -> b_mods c = b_mods b /\ b_imps c = b_imps b /\ incl (tkeys b) (tkeys c) /\
     In (sb_name s) (tkeys c) /\ (forall n, In n (map fst (b_subs c)) -> In n (tkeys c))).
  { intros c ->. unfold tkeys. cbn [put_sub b_mods b_imps b_texts b_subs]. repeat split.
    - intros n I. apply keys_mset. right. exact I.
    - apply keys_mset. left. reflexivity.
    - intros n I. apply keys_mset in I. apply keys_mset. destruct I as [I|I]; [left; exact I|right; exact (W n I)]. }
  unfold YlModel.accept_sub in H. destruct (mget N.eqb (sb_name s) (b_subs b)) as [old|] eqn:E.
  - destruct (checker (sb_name s) (sb_rev old) (sb_rev s) (text_or b (sb_name s) t) t [] []); try discriminate H; injection H as <- _;
      try (apply P; reflexivity).
    repeat split; [intros n I; exact I| |exact W]. apply W. exact (mget_Some_in _ Neqb_spec _ _ _ E).
  - injection H as <- _. apply P. reflexivity.
Qed.
Lemma add_sub_accept : forall p s t b b' a, add_sub p s t b = (b', Ok a) -> accept_sub s t b = (b', Ok a).
Proof.
  intros p s t b b' a H. unfold YlModel.add_sub in H. destruct (get_mod p (b_mods b)) as [m|]; [|discriminate H].
  destruct (existsb (sub_is (sb_name s)) (md_subs m)); [exact H|discriminate H].
Qed.
Lemma add_imp_sub_accept : forall p s t b b' a, add_imp_sub p s t b = (b', Ok a) -> accept_sub s t b = (b', Ok a).
Proof. intros p s t b b' a H. unfold YlModel.add_imp_sub in H. destruct (mget N.eqb p (b_imps b)); [exact H|discriminate H]. Qed.
(* all submodules of one module *)
Lemma subs_keep : forall f : submod -> octets -> builder -> builder * lres added,
  (forall s t b b' a, f s t b = (b', Ok a) -> accept_sub s t b = (b', Ok a)) ->
  forall texts l b b', bfold (fun s b => need_text texts (sb_name s) (fun t b => ignore (f s t b)) b) l b = (b', Ok tt) ->
  (forall n, In n (map fst (b_subs b)) -> In n (tkeys b)) ->
  b_mods b' = b_mods b /\ b_imps b' = b_imps b /\ incl (tkeys b) (tkeys b') /\
  (forall s, In s l -> In (sb_name s) (tkeys b')) /\
  (forall n, In n (map fst (b_subs b')) -> In n (tkeys b')).
Proof.
  intros f F texts. induction l as [|s r IH]; intros b b' H W; cbn in H.
  - injection H as <-. repeat split; [intros n I; exact I|intros s []|exact W].
  - unfold need_text at 1 in H. destruct (mget N.eqb (sb_name s) texts) as [t|]; [|discriminate H].
    unfold ignore in H at 1. destruct (f s t b) as [b1 [a|e| |]] eqn:E; try discriminate H. cbn in H.
    destruct (accept_sub_keeps _ _ _ _ _ (F _ _ _ _ _ E) W) as [A1 [A2 [A3 [A4 A5]]]].
    destruct (IH b1 b' H A5) as [B1 [B2 [B3 [B4 B5]]]].
    split; [congruence|]. split; [congruence|]. split; [intros n I; exact (B3 n (A3 n I))|]. split; [|exact B5].
    intros s' [<-|I]; [exact (B3 _ A4)|exact (B4 s' I)].
Qed.
Lemma bbind_ok : forall {A B} (x : builder * lres A) (f : A -> builder -> builder * lres B) b' y,
  bbind x f = (b', Ok y) -> exists b a, x = (b, Ok a) /\ f a b = (b', Ok y).
Proof. intros A B [b [a|e| |]] f b' y H; try discriminate H. exists b, a. split; [reflexivity|exact H]. Qed.

(* a module with its submodules *)
Lemma add_module_shape : forall m t b b' a, add_module m t b = (b', Ok a) ->
  b' = b \/ (exists f, b_mods b' = put_mod (set_feats f m) (b_mods b) /\ b_imps b' = b_imps b /\ b_subs b' = b_subs b /\
                       b_texts b' = mset N.eqb (md_name m) t (b_texts b)).
Proof.
  intros m t b b' a H. unfold YlModel.add_module in H. destruct (get_mod (md_name m) (b_mods b)) as [old|].
  - destruct (checker (md_name old) (md_rev old) (md_rev m) (text_or b (md_name old) t) t (md_feats old) (md_feats m));
      try discriminate H; injection H as <- _; [left; reflexivity|right|right]; eexists; cbn; repeat split; reflexivity.
  - injection H as <- _. right. exists (md_feats m). cbn. repeat split. destruct m; reflexivity.
Qed.
Lemma module_whole : forall texts m t b b1 a b', whole b -> add_module m t b = (b1, Ok a) ->
  bfold (fun s b => need_text texts (sb_name s) (fun t b => ignore (add_sub (md_name m) s t b)) b) (md_subs m) b1 = (b', Ok tt) ->
  whole b' /\ b_imps b' = b_imps b.
Proof.
  intros texts m t b b1 a b' W H F.
  assert (SW : forall n, In n (map fst (b_subs b1)) -> In n (tkeys b1)).
  { destruct (add_module_shape _ _ _ _ _ H) as [->|[f [A1 [A2 [A3 A4]]]]]; [exact (w_s _ W)|].
    intros n I. rewrite A3 in I. unfold tkeys. rewrite A4. apply keys_mset. right. exact (w_s _ W n I). }
  destruct (subs_keep _ (add_sub_accept (md_name m)) texts _ _ _ F SW) as [B1 [B2 [B3 [B4 B5]]]].
  destruct (add_module_shape _ _ _ _ _ H) as [->|[f [A1 [A2 [A3 A4]]]]].
  - split; [|exact B2]. constructor; [| |exact B5].
    + intros m' I. rewrite B1 in I. destruct (w_m _ W m' I) as [C1 C2]. split; [exact (B3 _ C1)|intros s S; exact (B3 _ (C2 s S))].
    + intros n l i I J. rewrite B2 in I. destruct (w_i _ W n l i I J) as [C1 C2]. split; [exact (B3 _ C1)|intros s S; exact (B3 _ (C2 s S))].
  - assert (T : incl (tkeys b) (tkeys b1)) by (intros n I; unfold tkeys; rewrite A4; apply keys_mset; right; exact I).
    split; [|congruence]. constructor; [| |exact B5].
    + intros m' I. rewrite B1, A1 in I. apply in_put_mod in I. destruct I as [->|I].
      * cbn. split; [apply B3; unfold tkeys; rewrite A4; apply keys_mset; left; reflexivity|exact B4].
      * destruct (w_m _ W m' I) as [C1 C2]. split; [exact (B3 _ (T _ C1))|intros s S; exact (B3 _ (T _ (C2 s S)))].
    + intros n l i I J. rewrite B2, A2 in I. destruct (w_i _ W n l i I J) as [C1 C2].
      split; [exact (B3 _ (T _ C1))|intros s S; exact (B3 _ (T _ (C2 s S)))].
Qed.
(* an import-only module with its submodules *)
Lemma add_import_shape : forall i t b b' a, add_import i t b = (b', Ok a) ->
  b' = b \/ b' = put_imp i t b.
Proof.
  intros i t b b' a H. unfold YlModel.add_import in H. destruct (mget N.eqb (im_name i) (b_imps b)) as [olds|].
  - destruct (find (fun o => rev_eqb (im_rev o) (im_rev i)) olds) as [old|]; [|discriminate H].
    destruct (checker (im_name i) (im_rev old) (im_rev i) (text_or b (im_name i) t) t [] []);
      try discriminate H; injection H as <- _; [left|right|right]; reflexivity.
  - injection H as <- _. right. reflexivity.
Qed.
Lemma import_whole : forall texts i t b b1 a b', whole b -> add_import i t b = (b1, Ok a) ->
  bfold (fun s b => need_text texts (sb_name s) (fun t b => ignore (add_imp_sub (im_name i) s t b)) b) (im_subs i) b1 = (b', Ok tt) ->
  whole b' /\ b_imps b' = b_imps b1.
Proof.
  intros texts i t b b1 a b' W H F.
  assert (SW : forall n, In n (map fst (b_subs b1)) -> In n (tkeys b1)).
  { destruct (add_import_shape _ _ _ _ _ H) as [ -> | -> ]; [exact (w_s _ W)|].
    intros n I. unfold tkeys. cbn [put_imp b_texts]. apply keys_mset. right. exact (w_s _ W n I). }
  destruct (subs_keep _ (add_imp_sub_accept (im_name i)) texts _ _ _ F SW) as [B1 [B2 [B3 [B4 B5]]]].
  split; [|exact B2].
  destruct (add_import_shape _ _ _ _ _ H) as [->| ->].
  - constructor; [| |exact B5].
    + intros m' I. rewrite B1 in I. destruct (w_m _ W m' I) as [C1 C2]. split; [exact (B3 _ C1)|intros s S; exact (B3 _ (C2 s S))].
    + intros n l j I J. rewrite B2 in I. destruct (w_i _ W n l j I J) as [C1 C2]. split; [exact (B3 _ C1)|intros s S; exact (B3 _ (C2 s S))].
  - assert (T : incl (tkeys b) (tkeys (put_imp i t b))) by (intros n I; unfold tkeys; cbn [put_imp b_texts]; apply keys_mset; right; exact I).
    constructor; [| |exact B5].
    + intros m' I. rewrite B1 in I. destruct (w_m _ W m' I) as [C1 C2]. split; [exact (B3 _ (T _ C1))|intros s S; exact (B3 _ (T _ (C2 s S)))].
    + intros n l j I J. rewrite B2 in I. cbn [put_imp b_imps] in I. apply in_mset in I. destruct I as [[-> ->]|I].
      * destruct J as [<-|[]]. split; [apply B3; unfold tkeys; cbn [put_imp b_texts]; apply keys_mset; left; reflexivity|exact B4].
      * destruct (w_i _ W n l j I J) as [C1 C2]. split; [exact (B3 _ (T _ C1))|intros s S; exact (B3 _ (T _ (C2 s S)))].
Qed.
Lemma keep_feats_whole : forall m b, whole b -> whole (keep_feats m b).
Proof.
  intros m b W. unfold keep_feats. destruct (get_mod (md_name m) (b_mods b)) as [old|] eqn:E; [|exact W].
  apply get_mod_some in E. destruct E as [E1 E2]. destruct (w_m _ W old E1) as [O1 O2]. destruct W as [W1 W2 W3].
  constructor; cbn; [|exact W2|exact W3]. intros x I. apply in_put_mod in I. destruct I as [->|I]; [|exact (W1 x I)].
  cbn. split; [exact O1|exact O2].
Qed.
Lemma bfold_inv : forall {A} (P : builder -> Prop) (f : A -> builder -> builder * lres unit),
  (forall x b b', P b -> f x b = (b', Ok tt) -> P b') ->
  forall l b b', P b -> bfold f l b = (b', Ok tt) -> P b'.
Proof.
  intros A P f F. induction l as [|x r IH]; intros b b' H E; cbn in E; [injection E as <-; exact H|].
  apply bbind_ok in E. destruct E as [b1 [[] [E1 E2]]]. exact (IH b1 b' (F x b b1 H E1) E2).
Qed.
Lemma import_module_whole : forall texts m b b', whole b -> import_module_of checker set_order texts m b = (b', Ok tt) -> whole b'.
Proof.
  intros texts m b b' W H. unfold import_module_of, need_text at 1 in H. destruct (mget N.eqb (md_name m) texts) as [t|]; [|discriminate H].
  destruct (has_texts texts (md_subs m)); [discriminate H|]. apply bbind_ok in H. destruct H as [b1 [a [H1 H2]]].
  exact (proj1 (module_whole _ _ _ _ _ _ _ W H1 H2)).
Qed.
Lemma import_only_whole : forall texts i b b', whole b -> import_only_of checker texts i b = (b', Ok tt) -> whole b'.
Proof.
  intros texts m b b' W H. unfold import_only_of, need_text at 1 in H. destruct (mget N.eqb (im_name m) texts) as [t|]; [|discriminate H].
  destruct (has_texts texts (im_subs m)); [discriminate H|]. apply bbind_ok in H. destruct H as [b1 [a [H1 H2]]].
  exact (proj1 (import_whole _ _ _ _ _ _ _ W H1 H2)).
Qed.
Lemma extend_module_whole : forall texts m b b', whole b -> extend_module checker set_order texts m b = (b', Ok tt) -> whole b'.
Proof.
  intros texts m b b' W H. unfold extend_module, need_text at 1 in H. destruct (mget N.eqb (md_name m) texts) as [t|]; [|discriminate H].
  apply bbind_ok in H. destruct H as [b1 [a [H1 H2]]].
  exact (proj1 (module_whole _ _ _ _ _ _ _ (keep_feats_whole _ _ W) H1 H2)).
Qed.
Lemma extend_import_whole : forall texts i b b', whole b -> extend_import checker texts i b = (b', Ok tt) -> whole b'.
Proof.
  intros texts m b b' W H. unfold extend_import, need_text at 1 in H. destruct (mget N.eqb (im_name m) texts) as [t|]; [|discriminate H].
  apply bbind_ok in H. destruct H as [b1 [a [H1 H2]]].
  exact (proj1 (import_whole _ _ _ _ _ _ _ W H1 H2)).
Qed.
Lemma whole_new : whole new_builder.
Proof. constructor; cbn; intros; contradiction. Qed.
Lemma into_whole : forall lib texts b, into_builder lib texts = (b, Ok tt) -> whole b.
Proof.
  intros lib texts b H. refine (bfold_inv whole _ _ lib new_builder b whole_new H).
  intros s c c' W E. apply bbind_ok in E. destruct E as [b1 [[] [E1 E2]]].
  pose proof (bfold_inv whole _ (import_module_whole texts) _ _ _ W E1) as W1.
  exact (bfold_inv whole _ (import_only_whole texts) _ _ _ W1 E2).
Qed.
Lemma extend_whole : forall lib texts b b', whole b -> extend lib texts b = (b', Ok tt) -> whole b'.
Proof.
  intros lib texts b b' W0 H. refine (bfold_inv whole _ _ lib b b' W0 H).
  intros s c c' W E. apply bbind_ok in E. destruct E as [b1 [[] [E1 E2]]].
  pose proof (bfold_inv whole _ (extend_module_whole texts) _ _ _ W E1) as W1.
  exact (bfold_inv whole _ (extend_import_whole texts) _ _ _ W1 E2).
Qed.

(* ---- one revision per import-only module ---- *)
Definition single (b : builder) : Prop := forall n l, In (n, l) (b_imps b) -> exists i, l = [i].
Definition rev_at (n : name) (b : builder) : option (list (option N)) := option_map (map im_rev) (mget N.eqb n (b_imps b)).
Lemma rev_eqb_true : forall a b, rev_eqb a b = true -> a = b.
Proof. intros [a|] [b|] H; cbn in H; try discriminate H; [|reflexivity]. replace b with a by lia. reflexivity. Qed.
Lemma add_import_rev : forall i t b b' a, single b -> add_import i t b = (b', Ok a) ->
  single b' /\ rev_at (im_name i) b' = Some [im_rev i] /\ forall n r, rev_at n b = Some [r] -> rev_at n b' = Some [r].
Proof.
  intros i t b b' a S H.
  assert (P : forall c, c = put_imp i t b -> (forall r, rev_at (im_name i) b = Some [r] -> r = im_rev i) ->
     single c /\ rev_at (im_name i) c = Some [im_rev i] /\ forall n r, rev_at n b = Some [r] -> rev_at n c = Some [r]).
  { intros c -> Q. split; [|split].
    - intros n l I. cbn [put_imp b_imps] in I. apply in_mset in I. destruct I as [[_ ->]|I]; [exists i; reflexivity|exact (S n l I)].
    - unfold rev_at. cbn [put_imp b_imps]. rewrite (mget_mset_eq _ Neqb_spec). reflexivity.
    - intros n r E. unfold rev_at. cbn [put_imp b_imps]. rewrite (mget_mset _ Neqb_spec). destruct (n =? im_name i) eqn:F; [|exact E].
      replace n with (im_name i) in E by lia. cbn. rewrite (Q r E). reflexivity. }
  unfold YlModel.add_import in H. destruct (mget N.eqb (im_name i) (b_imps b)) as [olds|] eqn:E.
  - destruct (S _ _ (mget_In _ Neqb_spec _ _ _ E)) as [o ->]. cbn in H.
    destruct (rev_eqb (im_rev o) (im_rev i)) eqn:F; [|discriminate H]. apply rev_eqb_true in F.
    assert (RA : rev_at (im_name i) b = Some [im_rev i]) by (unfold rev_at; rewrite E; cbn; rewrite F; reflexivity).
    assert (Q : forall r, rev_at (im_name i) b = Some [r] -> r = im_rev i) by (intros r X; rewrite RA in X; injection X as <-; reflexivity).
    destruct (checker (im_name i) (im_rev o) (im_rev i) (text_or b (im_name i) t) t [] []);
      try discriminate H; injection H as <- _; try (apply P; [reflexivity|exact Q]).
    split; [exact S|split; [exact RA|auto]].
  - injection H as <- _. apply P; [reflexivity|]. intros r X. unfold rev_at in X. rewrite E in X. discriminate X.
Qed.
Lemma import_only_rev : forall texts i b b', whole b -> single b -> import_only_of checker texts i b = (b', Ok tt) ->
  single b' /\ rev_at (im_name i) b' = Some [im_rev i] /\ forall n r, rev_at n b = Some [r] -> rev_at n b' = Some [r].
Proof.
  intros texts m b b' W S H. unfold import_only_of, need_text at 1 in H. destruct (mget N.eqb (im_name m) texts) as [t|]; [|discriminate H].
  destruct (has_texts texts (im_subs m)); [discriminate H|]. apply bbind_ok in H. destruct H as [b1 [a [H1 H2]]].
  pose proof (proj2 (import_whole _ _ _ _ _ _ _ W H1 H2)) as I. destruct (add_import_rev _ _ _ _ _ S H1) as [A [B C]].
  unfold single, rev_at in *. rewrite I. repeat split; assumption.
Qed.
Lemma import_module_rev : forall texts m b b', whole b -> import_module_of checker set_order texts m b = (b', Ok tt) -> b_imps b' = b_imps b.
Proof.
  intros texts m b b' W H. unfold import_module_of, need_text at 1 in H. destruct (mget N.eqb (md_name m) texts) as [t|]; [|discriminate H].
  destruct (has_texts texts (md_subs m)); [discriminate H|]. apply bbind_ok in H. destruct H as [b1 [a [H1 H2]]].
  exact (proj2 (module_whole _ _ _ _ _ _ _ W H1 H2)).
Qed.
Definition seen (n : name) (r : option N) (b : builder) : Prop := whole b /\ single b /\ rev_at n b = Some [r].
Lemma mods_seen : forall texts n r l b b', seen n r b -> bfold (import_module_of checker set_order texts) l b = (b', Ok tt) -> seen n r b'.
Proof.
  intros texts n r. apply bfold_inv. intros m b b' [W [S Q]] H. pose proof (import_module_rev _ _ _ _ W H) as I.
  split; [exact (import_module_whole _ _ _ _ W H)|]. unfold single, rev_at in *. rewrite I. split; assumption.
Qed.
Lemma imps_seen : forall texts n r l b b', seen n r b -> bfold (import_only_of checker texts) l b = (b', Ok tt) -> seen n r b'.
Proof.
  intros texts n r. apply bfold_inv. intros i b b' [W [S Q]] H. destruct (import_only_rev _ _ _ _ W S H) as [A [B C]].
  split; [exact (import_only_whole _ _ _ _ W H)|]. split; [exact A|exact (C n r Q)].
Qed.
Lemma imps_added : forall texts l b b' i, whole b -> single b -> bfold (import_only_of checker texts) l b = (b', Ok tt) -> In i l ->
  seen (im_name i) (im_rev i) b'.
Proof.
  intros texts. induction l as [|j r IH]; intros b b' i W S H I; [destruct I|]. cbn in H. apply bbind_ok in H.
  destruct H as [b1 [[] [H1 H2]]]. destruct (import_only_rev _ _ _ _ W S H1) as [A [B C]].
  pose proof (import_only_whole _ _ _ _ W H1) as W1. destruct I as [<-|I].
  - exact (imps_seen _ _ _ _ _ _ (conj W1 (conj A B)) H2).
  - exact (IH b1 b' i W1 A H2 I).
Qed.
Definition ws (b : builder) : Prop := whole b /\ single b.
Lemma set_ws : forall texts s b b', ws b ->
  bbind (bfold (import_module_of checker set_order texts) (ms_mods s) b)
        (fun _ b => bfold (import_only_of checker texts) (flat_map snd (ms_imps s)) b) = (b', Ok tt) ->
  ws b' /\ (forall n r, rev_at n b = Some [r] -> rev_at n b' = Some [r]) /\
  forall i, In i (flat_map snd (ms_imps s)) -> rev_at (im_name i) b' = Some [im_rev i].
Proof.
  intros texts s b b' [W S] H. apply bbind_ok in H. destruct H as [b1 [[] [H1 H2]]].
  assert (W1 : ws b1).
  { refine (bfold_inv ws _ _ _ _ _ (conj W S) H1). intros m c c' [X Y] E. pose proof (import_module_rev _ _ _ _ X E) as I.
    split; [exact (import_module_whole _ _ _ _ X E)|]. unfold single. rewrite I. exact Y. }
  assert (W2 : ws b').
  { refine (bfold_inv ws _ _ _ _ _ W1 H2). intros m c c' [X Y] E.
    split; [exact (import_only_whole _ _ _ _ X E)|exact (proj1 (import_only_rev _ _ _ _ X Y E))]. }
  split; [exact W2|]. split.
  - intros n r Q. pose proof (mods_seen _ n r _ _ _ (conj W (conj S Q)) H1) as Q1. exact (proj2 (proj2 (imps_seen _ n r _ _ _ Q1 H2))).
  - intros i I. exact (proj2 (proj2 (imps_added _ _ _ _ i (proj1 W1) (proj2 W1) H2 I))).
Qed.
Lemma into_revs : forall texts lib b b', ws b ->
  bfold (fun s b => bbind (bfold (import_module_of checker set_order texts) (ms_mods s) b)
                          (fun _ b => bfold (import_only_of checker texts) (flat_map snd (ms_imps s)) b)) lib b = (b', Ok tt) ->
  (forall n r, rev_at n b = Some [r] -> rev_at n b' = Some [r]) /\
  forall i, has_import lib i -> rev_at (im_name i) b' = Some [im_rev i].
Proof.
  intros texts. induction lib as [|s r IH]; intros b b' W H.
  - cbn in H. injection H as <-. split; [auto|]. intros i [s [n [l [[] _]]]].
  - cbn [bfold] in H. apply bbind_ok in H. destruct H as [b1 [[] [H1 H2]]]. destruct (set_ws _ _ _ _ W H1) as [A [B C]].
    destruct (IH b1 b' A H2) as [D E]. split; [intros n x Q; exact (D _ _ (B _ _ Q))|].
    intros i [s' [n [l [I [J Z]]]]]. destruct I as [<-|I].
    + apply D. apply C. apply in_flat_map. exists (n, l). split; assumption.
    + apply E. exists s', n, l. repeat split; assumption.
Qed.
Lemma into_one_revision : forall lib texts b i j, into_builder lib texts = (b, Ok tt) ->
  has_import lib i -> has_import lib j -> im_name i = im_name j -> im_rev i = im_rev j.
Proof.
  intros lib texts b i j H I J E.
  destruct (into_revs texts lib new_builder b (conj whole_new (fun n l (X : In (n, l) []) => False_ind _ X)) H) as [_ Q].
  pose proof (Q i I) as A. pose proof (Q j J) as B. rewrite E in A. rewrite A in B. injection B as ->. reflexivity.
Qed.
End Builder.

(* ---- extending by one module ---- *)
Section Extend.
Variable checker : name -> option N -> option N -> octets -> octets -> list octets -> list octets -> compat.
Variable set_order : list octets -> list octets.

Lemma get_put_mod : forall m l, get_mod (md_name m) (put_mod m l) = Some m.
Proof.
  intros m. induction l as [|y r IH].
  - unfold get_mod. cbn. unfold mod_is. rewrite N.eqb_refl. reflexivity.
  - cbn [put_mod]. destruct (md_name y =? md_name m) eqn:E; unfold get_mod in *; cbn; unfold mod_is at 1.
    + rewrite N.eqb_refl. reflexivity.
    + rewrite E. exact IH.
Qed.
Lemma subs_mods : forall texts p l b b' r, bfold (fun s b => need_text texts (sb_name s) (fun t b => ignore (add_sub checker p s t b)) b) l b = (b', r) ->
  b_mods b' = b_mods b.
Proof.
  intros texts p. induction l as [|s r IH]; intros b b' x H; cbn in H; [injection H as <- _; reflexivity|].
  unfold need_text at 1 in H. destruct (mget N.eqb (sb_name s) texts) as [t|]; [|injection H as <- _; reflexivity].
  assert (A : b_mods (fst (add_sub checker p s t b)) = b_mods b).
  { unfold add_sub, accept_sub. repeat match goal with |- context [match ?c with _ => _ end] => destruct c end; reflexivity. }
  unfold ignore in H at 1. destruct (add_sub checker p s t b) as [b1 [a|e| |]]; cbn in H, A.
  - rewrite (IH _ _ _ H). exact A.
  - injection H as <- _. exact A.
  - injection H as <- _. exact A.
  - injection H as <- _. exact A.
Qed.
Lemma extend_feats : forall m texts b b', (forall l f, In f (set_order l) <-> In f l) ->
  extend checker set_order [MSet [m] []] texts b = (b', Ok tt) ->
  exists m', get_mod (md_name m) (b_mods b') = Some m' /\ forall f, In f (md_feats m') <-> In f (md_feats m).
Proof.
  intros m texts b b' O H. unfold extend in H. cbn in H. apply bbind_ok in H. destruct H as [b2 [[] [H H2]]]. cbn in H2. injection H2 as <-.
  apply bbind_ok in H. destruct H as [b3 [[] [H H2]]]. cbn in H2. injection H2 as <-.
  apply bbind_ok in H. destruct H as [b4 [[] [H H2]]]. cbn in H2. injection H2 as <-.
  unfold extend_module, need_text at 1 in H. destruct (mget N.eqb (md_name m) texts) as [t|]; [|discriminate H].
  apply bbind_ok in H. destruct H as [b1 [a [H1 H2]]]. rewrite (subs_mods _ _ _ _ _ _ H2). clear H2.
  unfold keep_feats in H1. destruct (get_mod (md_name m) (b_mods b)) as [old|] eqn:E.
  - destruct (get_mod_some _ _ _ E) as [_ En]. unfold add_module in H1. cbn [b_mods] in H1.
    pose proof (get_put_mod (set_feats (md_feats m) old) (b_mods b)) as G. cbn [set_feats md_name] in G. rewrite En in G. rewrite G in H1.
    destruct (checker (md_name (set_feats (md_feats m) old))); try discriminate H1; injection H1 as <- _.
    + exists (set_feats (md_feats m) old). split; [cbn [b_mods]; rewrite <- En at 1; rewrite <- En in G; exact G|intros f; reflexivity].
    + eexists. split; [cbn [b_mods]; exact (get_put_mod (set_feats _ m) _)|]. intros f. cbn. rewrite O, in_app_iff. tauto.
    + eexists. split; [cbn [b_mods]; exact (get_put_mod (set_feats _ m) _)|]. intros f. cbn. rewrite O, in_app_iff. tauto.
  - unfold add_module in H1. rewrite E in H1. injection H1 as <- _. exists m. split; [apply get_put_mod|intros f; reflexivity].
Qed.
Lemma extend_conflict : forall m texts b old t, get_mod (md_name m) (b_mods b) = Some old -> mget N.eqb (md_name m) texts = Some t ->
  checker (md_name m) (md_rev old) (md_rev m) (text_or b (md_name m) t) t (md_feats m) (md_feats m) = Incompatible ->
  exists b', extend checker set_order [MSet [m] []] texts b = (b', Err (VersionConflict (md_name m))) /\
    get_mod (md_name m) (b_mods b') = Some (set_feats (md_feats m) old).
Proof.
  intros m texts b old t E T I. destruct (get_mod_some _ _ _ E) as [_ En]. exists (keep_feats m b).
  pose proof (get_put_mod (set_feats (md_feats m) old) (b_mods b)) as G. cbn [set_feats md_name] in G. rewrite En in G.
  unfold keep_feats. rewrite E. split; [|exact G].
  unfold extend. cbn. unfold extend_module, need_text, keep_feats. rewrite T, E. unfold add_module. cbn [b_mods]. unfold get_mod in *.
  rewrite G. cbn [md_name set_feats md_rev md_feats]. unfold text_or in *. cbn [b_texts]. rewrite En, I. reflexivity.
Qed.
End Extend.

(* ---- the checker plays no part in loading ---- *)
Section Indep.
Variable device : name -> option N -> option octets.
Variable deps_of : octets -> option (list name * list name).
Variable hash : octets -> N.
Variable lib : library.
Variable seeds : list name.
Hypothesis K : keyed lib.
Hypothesis C : clear lib.
Variables c1 c2 : name -> option N -> option N -> octets -> octets -> list octets -> list octets -> compat.
Variables o1 o2 : list octets -> list octets.
Lemma welcome_added : forall x b a, welcome x b = Ok a -> a = Added.
Proof.
  intros x b a H. destruct x; cbn in H; repeat match type of H with context [match ?c with _ => _ end] => destruct c end; try discriminate H; injection H as <-; reflexivity.
Qed.
Lemma bfs_indep : forall n q v b lg, good device deps_of lib seeds q v b lg ->
  bfs c1 o1 device deps_of lib n q v b lg = bfs c2 o2 device deps_of lib n q v b lg.
Proof.
  induction n as [|n IH]; intros q; induction q as [|x q IHq]; intros v b lg G;
    try (rewrite !bfs_nil; reflexivity); rewrite !bfs_cons;
    (destruct (mem (iname x) v) eqn:M; [apply mem_in in M; exact (IHq _ _ _ (good_skip _ _ _ _ _ _ _ _ _ G M))|]); [reflexivity|].
  apply mem_out in M. destruct (device (iname x) (irev x)) as [t|] eqn:T; [|reflexivity].
  destruct (deps_of t) as [d|] eqn:D; [|reflexivity].
  pose proof (good_fresh _ _ _ _ _ _ _ _ _ G M) as F.
  destruct (add_item_fresh c1 o1 x t b F) as [A1 B1]. destruct (add_item_fresh c2 o2 x t b F) as [A2 B2].
  destruct (add_item c1 o1 x t b) as [x1 r1]. destruct (add_item c2 o2 x t b) as [x2 r2]. cbn in A1, A2, B1, B2. subst r1 r2.
  destruct (welcome x b) as [a|e| |] eqn:W; try reflexivity. pose proof (welcome_added _ _ _ W) as ->.
  rewrite (B1 eq_refl), (B2 eq_refl). apply IH. eapply good_visit; eassumption.
Qed.
Lemma load_indep : load c1 o1 hash device deps_of lib seeds = load c2 o2 hash device deps_of lib seeds.
Proof.
  unfold load, load_upto. destruct (all_seeds lib seeds) as [q|e| |] eqn:E; try reflexivity.
  rewrite (bfs_indep _ q [] new_builder [] (good_start _ _ lib seeds K q E)). reflexivity.
Qed.
End Indep.

(* ---- the content id ---- *)
Section Cid.
Variable hash : octets -> N.
(* the same as far as the content id goes *)
Lemma all_octets_ext : forall {A} (f g : A -> lres octets) l l', Forall2 (fun x y => f x = g y) l l' -> all_octets f l = all_octets g l'.
Proof. intros A f g l l' H. induction H as [|x y l l' E H IH]; [reflexivity|]. cbn. rewrite E, IH. reflexivity. Qed.
Lemma cid_blind : forall mods mods' imps texts subs subs' L,
  Forall2 (fun m m' => md_name m = md_name m' /\ map sb_name (md_subs m) = map sb_name (md_subs m') /\
                       concat (md_feats m) = concat (md_feats m')) mods mods' ->
  build hash (Bld mods imps texts subs) = Ok L ->
  exists L', build hash (Bld mods' imps texts subs') = Ok L' /\ l_cid L' = l_cid L /\ l_mods L' = mods'.
Proof.
  intros mods mods' imps texts subs subs' L F H. unfold build in *. cbn [b_mods b_imps b_texts] in *.
  rewrite <- (all_octets_ext (mod_octets texts) (mod_octets texts) mods mods').
  - destruct (all_octets (mod_octets texts) mods) as [t|e| |]; try discriminate H. cbn in *.
    destruct (all_octets (imp_octets texts) (flat_map snd imps)) as [u|e| |]; try discriminate H. cbn in *.
    injection H as <-. eexists. repeat split.
  - clear H. induction F as [|m m' l l' [A [B D]] F IH]; [constructor|]. constructor; [|exact IH]. unfold mod_octets. rewrite A, B, D. reflexivity.
Qed.
End Cid.
