(* Saving the schemas of a library and loading them back. *)
From Verif Require Import Base MapLib YcModel YcSpec.
From Coq Require Import String Ascii Permutation.
Open Scope N_scope.

Lemma seqb_spec : forall a b : string, reflect (a = b) (String.eqb a b).
Proof. exact String.eqb_spec. Qed.
Lemma skey_eqb_spec : forall a b : skey, reflect (a = b) (skey_eqb a b).
Proof. unfold skey_eqb. repeat apply pair_eqb_spec; try apply Neqb_spec. apply seqb_spec. Qed.
Lemma id_eqb_spec : forall a b : N * N, reflect (a = b) (id_eqb a b).
Proof. unfold id_eqb. apply pair_eqb_spec; apply Neqb_spec. Qed.
Lemma same_sub_spec a b : reflect (key_of a = key_of b) (same_sub a b).
Proof. apply skey_eqb_spec. Qed.
Lemma same_key a b : same_subscription a b <-> key_of a = key_of b.
Proof. unfold same_subscription, key_of. split; [intros (A & B & C & D); congruence|]. intros H. injection H; auto. Qed.

(* ---- file names ---- *)
Lemma has_char_app a x y : has_char a (x ++ y) = has_char a x || has_char a y.
Proof. induction x as [|b x IH]; cbn; [reflexivity|]. rewrite IH, Bool.orb_assoc. reflexivity. Qed.
Lemma rev_file_at n r : has_char "@" (rev_file n r) = true.
Proof. unfold rev_file. rewrite has_char_app. cbn. apply Bool.orb_true_r. Qed.
Lemma rev_file_inj n r n' r' : has_char "@" n = false -> has_char "@" n' = false -> rev_file n r = rev_file n' r' -> n = n'.
Proof.
  unfold rev_file. revert n'. induction n as [|a n IH]; intros [|b n'] H H' E; cbn [append has_char] in *; [reflexivity| | |].
  - injection E as E1 E2. subst b. cbn in H'. discriminate H'.
  - injection E as E1 E2. subst a. cbn in H. discriminate H.
  - injection E as E1 E2. subst b. apply Bool.orb_false_iff in H as [_ H]. apply Bool.orb_false_iff in H' as [_ H']. f_equal. apply IH; auto.
Qed.
Lemma saved_name_inj lib n n' : has_char "@" n = false -> has_char "@" n' = false -> saved_name n lib = saved_name n' lib -> n = n'.
Proof.
  unfold saved_name. intros H H'. destruct (saved_rev n lib) as [r|], (saved_rev n' lib) as [r'|]; intros E.
  - eapply rev_file_inj; eauto.
  - rewrite <- E, rev_file_at in H'. discriminate H'.
  - rewrite E, rev_file_at in H. discriminate H.
  - exact E.
Qed.

(* ---- finding modules ---- *)
Lemma name_is_eq n i : name_is n i = true <-> yi_name i = n.
Proof. unfold name_is. apply String.eqb_eq. Qed.
Lemma find_module_some n sets i : find_module n sets = Some i ->
  yi_name i = n /\ exists s m, In s sets /\ In m (ys_modules s) /\ i = ym_item m.
Proof.
  induction sets as [|s sets IH]; cbn; [intros E; discriminate E|].
  destruct (find _ (ys_modules s)) as [m|] eqn:F.
  - intros E. injection E as <-. apply find_some in F as [F1 F2]. apply name_is_eq in F2. split; [exact F2|]. exists s, m. auto.
  - intros E. destruct (IH E) as [A (s' & m & B & C & D)]. split; [exact A|]. exists s', m. auto.
Qed.
Lemma find_module_none n sets : find_module n sets = None -> forall s m, In s sets -> In m (ys_modules s) -> yi_name (ym_item m) <> n.
Proof.
  induction sets as [|s sets IH]; cbn; [intros _ s m []|].
  destruct (find _ (ys_modules s)) as [m|] eqn:F; [intros E; discriminate E|].
  intros E s' m [<-|H] Hm; [|exact (IH E s' m H Hm)]. intros Hn. pose proof (find_none _ _ F m Hm) as X. cbn in X. apply name_is_eq in Hn. congruence.
Qed.
Lemma find_submodule_some n sets i : find_submodule n sets = Some i ->
  yi_name i = n /\ exists s m, In s sets /\ In m (ys_modules s) /\ In i (ym_subs m).
Proof.
  induction sets as [|s sets IH]; cbn; [intros E; discriminate E|].
  destruct (find _ _) as [j|] eqn:F.
  - intros E. injection E as <-. apply find_some in F as [F1 F2]. apply name_is_eq in F2. split; [exact F2|].
    apply in_flat_map in F1 as (m & F1 & F3). exists s, m. auto.
  - intros E. destruct (IH E) as [A (s' & m & B & C & D)]. split; [exact A|]. exists s', m. auto.
Qed.
Lemma find_submodule_none n sets : find_submodule n sets = None -> forall s m i, In s sets -> In m (ys_modules s) -> In i (ym_subs m) -> yi_name i <> n.
Proof.
  induction sets as [|s sets IH]; cbn; [intros _ s m i []|].
  destruct (find _ _) as [j|] eqn:F; [intros E; discriminate E|].
  intros E s' m i [<-|H] Hm Hi; [|exact (IH E s' m i H Hm Hi)]. intros Hn.
  assert (X : In i (flat_map ym_subs (ys_modules s))) by (apply in_flat_map; eauto).
  pose proof (find_none _ _ F i X) as Y. apply name_is_eq in Hn. congruence.
Qed.
Lemma find_import_some n sets l : find_import n sets = Some l -> exists s, In s sets /\ In (n, l) (ys_imports s).
Proof.
  induction sets as [|s sets IH]; cbn; [intros E; discriminate E|].
  destruct (sget n (ys_imports s)) as [l'|] eqn:F.
  - intros E. injection E as <-. exists s. split; [auto|]. exact (mget_In _ seqb_spec _ _ _ F).
  - intros E. destruct (IH E) as (s' & A & B). exists s'. auto.
Qed.
Lemma find_import_none n sets : find_import n sets = None -> forall s g, In s sets -> In g (ys_imports s) -> fst g <> n.
Proof.
  induction sets as [|s sets IH]; cbn; [intros _ s g []|].
  destruct (sget n (ys_imports s)) as [l'|] eqn:F; [intros E; discriminate E|].
  intros E s' g [<-|H] Hg; [|exact (IH E s' g H Hg)]. intros Hn.
  apply (mget_None_notin _ seqb_spec) in F. apply F. unfold mkeys. rewrite <- Hn. apply in_map. exact Hg.
Qed.

Lemma saved_rev_item lib sch i : complete lib sch -> names lib i -> saved_rev (yi_name i) lib = yi_rev i.
Proof.
  intros C Hi. unfold saved_rev.
  destruct (find_module (yi_name i) (yl_sets lib)) as [j|] eqn:F1.
  { apply find_module_some in F1 as [A (s & m & B & D & E)].
    f_equal. apply (cm_one _ _ C); [|exact Hi|exact A]. exists s. split; [exact B|]. left. exists m. auto. }
  destruct (find_import (yi_name i) (yl_sets lib)) as [l|] eqn:F2.
  { apply find_import_some in F2 as (s & A & B). destruct (cm_filed _ _ C s _ A B) as [X Y]. cbn in X, Y.
    destruct l as [|m l]; [congruence|]. f_equal. apply (cm_one _ _ C); [|exact Hi|apply Y; left; reflexivity].
    exists s. split; [exact A|]. right. exists (yi_name i, m :: l), m. cbn. auto. }
  destruct (find_submodule (yi_name i) (yl_sets lib)) as [j|] eqn:F3.
  { apply find_submodule_some in F3 as [A (s & m & B & D & E)].
    f_equal. apply (cm_one _ _ C); [|exact Hi|exact A]. exists s. split; [exact B|]. left. exists m. auto. }
  exfalso. destruct Hi as (s & Hs & [(m & Hm & [E|E])|(g & m & Hg & Hm & [E|E])]).
  - apply (find_module_none _ _ F1 s m Hs Hm). now rewrite <- E.
  - now apply (find_submodule_none _ _ F3 s m i Hs Hm E).
  - apply (find_import_none _ _ F2 s g Hs Hg). destruct (cm_filed _ _ C s g Hs Hg) as [_ Y]. rewrite <- (Y m Hm), <- E. reflexivity.
  - rewrite (cm_no_subs _ _ C s g m Hs Hg Hm) in E. destruct E.
Qed.

Lemma lib_items_names lib i : In i (lib_items lib) <-> names lib i.
Proof.
  unfold lib_items, names. rewrite in_flat_map. split.
  - intros (s & Hs & Hi). exists s. split; [exact Hs|]. unfold set_items in Hi. apply in_app_or in Hi as [Hi|Hi].
    + apply in_flat_map in Hi as (m & Hm & Hi). left. exists m. split; [exact Hm|]. destruct Hi as [Hi|Hi]; auto.
    + apply in_flat_map in Hi as (g & Hg & Hi). apply in_flat_map in Hi as (m & Hm & Hi). right. exists g, m.
      split; [exact Hg|]. split; [exact Hm|]. destruct Hi as [Hi|Hi]; auto.
  - intros (s & Hs & [(m & Hm & H)|(g & m & Hg & Hm & H)]); exists s; (split; [exact Hs|]); unfold set_items; apply in_or_app.
    + left. apply in_flat_map. exists m. split; [exact Hm|]. destruct H as [->|H]; [left; reflexivity|right; exact H].
    + right. apply in_flat_map. exists g. split; [exact Hg|]. apply in_flat_map. exists m. split; [exact Hm|].
      destruct H as [->|H]; [left; reflexivity|right; exact H].
Qed.

(* ---- the module files ---- *)
Definition file_step (lib : ylib) (ms : list (string * string)) (nt : string * string) : list (string * string) :=
  sset (saved_name (fst nt) lib) (snd nt) (sset (saved_name (fst nt) lib) EmptyString ms).
Definition files_of (lib : ylib) (sch : list (string * string)) : list (string * string) := fold_left (file_step lib) sch [].

Lemma files_other lib sch : forall ms f, (forall nt, In nt sch -> saved_name (fst nt) lib <> f) ->
  sget f (fold_left (file_step lib) sch ms) = sget f ms.
Proof.
  induction sch as [|nt sch IH]; intros ms f H; cbn [fold_left]; [reflexivity|].
  rewrite IH by (intros x Hx; apply H; right; exact Hx). unfold file_step, sget, sset.
  assert (f <> saved_name (fst nt) lib) by (intros X; apply (H nt); [left; reflexivity|congruence]).
  rewrite !(mget_mset_neq _ seqb_spec) by assumption. reflexivity.
Qed.
Lemma files_get lib sch : forall ms n t, NoDup (map fst sch) -> (forall n' t', In (n', t') sch -> has_char "@" n' = false) ->
  In (n, t) sch -> sget (saved_name n lib) (fold_left (file_step lib) sch ms) = Some t.
Proof.
  induction sch as [|[n0 t0] sch IH]; intros ms n t Hd Hc Hi; [destruct Hi|]. cbn [fold_left]. inversion Hd as [|? ? Hn Hd']; subst.
  destruct Hi as [E|Hi].
  - injection E as -> ->. rewrite files_other.
    + unfold file_step, sget, sset. cbn [fst snd]. apply (mget_mset_eq _ seqb_spec).
    + intros [n1 t1] H1. cbn [fst]. intros E. apply Hn. assert (n1 = n); [|subst; apply in_map_iff; exists (n, t1); auto].
      apply (saved_name_inj lib); [apply (Hc n1 t1); right; exact H1|apply (Hc n t); left; reflexivity|exact E].
  - apply IH; auto. intros n' t' H'. apply (Hc n' t'). right. exact H'.
Qed.

Lemma load_one_complete lib sch i : complete lib sch -> names lib i ->
  exists t, In (yi_name i, t) sch /\ load_one (files_of lib sch) i = Some t.
Proof.
  intros C Hi. destruct (cm_schema _ _ C i Hi) as [t Ht]. exists t. split; [exact Ht|].
  destruct (cm_rev _ _ C i Hi) as [r Hr]. unfold load_one. rewrite Hr.
  pose proof (files_get lib sch [] (yi_name i) t (cm_keys _ _ C) (cm_ident _ _ C) Ht) as G.
  unfold saved_name in G. rewrite (saved_rev_item _ _ _ C Hi), Hr in G. unfold files_of. rewrite G. reflexivity.
Qed.

Lemma load_all_some files is : forall acc, (forall i, In i is -> load_one files i <> None) -> exists r, load_all files is acc = Some r.
Proof.
  induction is as [|i is IH]; intros acc H; cbn; [eauto|].
  destruct (load_one files i) as [t|] eqn:E; [|exfalso; apply (H i); [left; reflexivity|exact E]].
  apply IH. intros j Hj. apply H. right. exact Hj.
Qed.
Lemma load_all_none files is : forall acc i, In i is -> load_one files i = None -> load_all files is acc = None.
Proof.
  induction is as [|j is IH]; intros acc i Hi E; [destruct Hi|]. cbn.
  destruct Hi as [->|Hi]; [rewrite E; reflexivity|]. destruct (load_one files j); [|reflexivity]. eapply IH; eauto.
Qed.
Lemma load_all_get files is : forall acc r, load_all files is acc = Some r ->
  (forall i j, In i is -> In j is -> yi_name i = yi_name j -> i = j) ->
  forall n, sget n r = match find (name_is n) is with Some i => load_one files i | None => sget n acc end.
Proof.
  induction is as [|i is IH]; intros acc r E Hu n; cbn in E |- *; [injection E as <-; reflexivity|].
  destruct (load_one files i) as [t|] eqn:F; [|discriminate E].
  rewrite (IH _ _ E) by (intros a b Ha Hb; apply Hu; right; assumption).
  destruct (find (name_is n) is) as [j|] eqn:G.
  - apply find_some in G as [G1 G2]. destruct (name_is n i) eqn:K; [|reflexivity].
    apply name_is_eq in G2. apply name_is_eq in K. f_equal. apply Hu; [right; exact G1|left; reflexivity|congruence].
  - unfold sget, sset. rewrite (mget_mset _ seqb_spec). destruct (name_is n i) eqn:K.
    + apply name_is_eq in K. subst n. rewrite (eqb_refl' _ seqb_spec). now rewrite F.
    + unfold name_is in K. rewrite String.eqb_sym in K. now rewrite K.
Qed.

Lemma load_saved lib sch : complete lib sch -> exists r, load_schemas (files_of lib sch) lib = Some r /\
  (forall i, names lib i -> sget (yi_name i) r = sget (yi_name i) sch) /\
  (forall n, (forall i, names lib i -> yi_name i <> n) -> sget n r = None).
Proof.
  intros C. unfold load_schemas. destruct (load_all_some (files_of lib sch) (lib_items lib) []) as [r Hr].
  { intros i Hi. apply lib_items_names in Hi. destruct (load_one_complete _ _ i C Hi) as (t & _ & E). congruence. }
  exists r. split; [exact Hr|].
  assert (Hu : forall i j, In i (lib_items lib) -> In j (lib_items lib) -> yi_name i = yi_name j -> i = j).
  { intros i j Hi Hj. apply lib_items_names in Hi. apply lib_items_names in Hj. now apply (cm_one _ _ C). }
  split.
  - intros i Hi. rewrite (load_all_get _ _ _ _ Hr Hu). destruct (find (name_is (yi_name i)) (lib_items lib)) as [j|] eqn:F.
    + apply find_some in F as [F1 F2]. apply name_is_eq in F2. apply lib_items_names in F1. assert (j = i) by (now apply (cm_one _ _ C)). subst j.
      destruct (load_one_complete _ _ i C Hi) as (t & Ht & E). rewrite E. symmetry. apply (In_mget _ seqb_spec); [exact (cm_keys _ _ C)|exact Ht].
    + exfalso. apply lib_items_names in Hi. pose proof (find_none _ _ F i Hi) as X. assert (name_is (yi_name i) i = true) by (apply name_is_eq; reflexivity). congruence.
  - intros n Hn. rewrite (load_all_get _ _ _ _ Hr Hu). destruct (find (name_is n) (lib_items lib)) as [j|] eqn:F; [|reflexivity].
    exfalso. apply find_some in F as [F1 F2]. apply name_is_eq in F2. apply lib_items_names in F1. exact (Hn j F1 F2).
Qed.

(* a module without a revision: its file is not found again *)
Lemma load_no_revision lib sch i : names lib i -> yi_rev i = None ->
  (forall n t, In (n, t) sch -> has_char "@" n = false) -> has_char "@" (yi_name i) = false ->
  (forall t, ~ In ((yi_name i ++ ".yang")%string, t) sch) -> load_schemas (files_of lib sch) lib = None.
Proof.
  intros Hi Hr Hc Hci Hy. apply lib_items_names in Hi. apply (load_all_none _ _ _ i Hi). unfold load_one. rewrite Hr.
  unfold files_of. rewrite files_other; [reflexivity|]. intros [n t] Hn. cbn [fst]. unfold saved_name.
  destruct (saved_rev n lib) as [r|]; intros E.
  - assert (X : has_char "@" (yi_name i ++ ".yang") = false) by (rewrite has_char_app, Hci; reflexivity). rewrite <- E, rev_file_at in X. discriminate X.
  - subst n. exact (Hy t Hn).
Qed.
