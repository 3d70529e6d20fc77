(* Checking the hypotheses of the cache theorems on concrete histories. *)
From Verif Require Import Base MapLib YcModel YcSpec YcFileProofs YcProofs.
From Coq Require Import String Ascii Permutation.
Open Scope N_scope.

Definition yitem_dec : forall a b : yitem, {a = b} + {a <> b}.
Proof. repeat decide equality. Defined.
Definition same_itemb (i j : yitem) : bool := negb (String.eqb (yi_name i) (yi_name j)) || (if yitem_dec i j then true else false).
Fixpoint nodupb (l : list string) : bool := match l with [] => true | x :: l' => negb (existsb (String.eqb x) l') && nodupb l' end.
Lemma nodupb_ok l : nodupb l = true -> NoDup l.
Proof.
  induction l as [|x l IH]; cbn; intros H; [constructor|]. apply andb_prop in H as [A B]. constructor; [|auto]. intros X.
  assert (Y : existsb (String.eqb x) l = true) by (apply existsb_exists; exists x; split; [exact X|apply String.eqb_refl]). rewrite Y in A. discriminate A.
Qed.
Definition complete_check (lib : ylib) (sch : list (string * string)) : bool :=
  forallb (fun s => forallb (fun g => negb (match snd g with [] => true | _ => false end) && forallb (fun m => String.eqb (yi_name (ym_item m)) (fst g) && match ym_subs m with [] => true | _ => false end) (snd g)) (ys_imports s)) (yl_sets lib) &&
  forallb (fun i => match yi_rev i with Some _ => true | None => false end && existsb (fun nt => String.eqb (fst nt) (yi_name i)) sch && forallb (same_itemb i) (lib_items lib)) (lib_items lib) &&
  nodupb (map fst sch) && forallb (fun nt => negb (has_char "@" (fst nt))) sch.
Lemma complete_check_ok lib sch : complete_check lib sch = true -> complete lib sch.
Proof.
  unfold complete_check. intros H. apply andb_prop in H as [H H4]. apply andb_prop in H as [H H3]. apply andb_prop in H as [H1 H2].
  rewrite forallb_forall in H1, H2, H4.
  assert (G : forall s g, In s (yl_sets lib) -> In g (ys_imports s) -> snd g <> [] /\ forall m, In m (snd g) -> yi_name (ym_item m) = fst g /\ ym_subs m = []).
  { intros s g Hs Hg. specialize (H1 s Hs). rewrite forallb_forall in H1. specialize (H1 g Hg). apply andb_prop in H1 as [A B]. split; [destruct (snd g); [discriminate A|discriminate]|].
    intros m Hm. rewrite forallb_forall in B. specialize (B m Hm). apply andb_prop in B as [B C]. apply String.eqb_eq in B. split; [exact B|]. destruct (ym_subs m); [reflexivity|discriminate C]. }
  constructor.
  - intros s g Hs Hg. destruct (G s g Hs Hg) as [A B]. split; [exact A|]. intros m Hm. apply B. exact Hm.
  - intros i Hi. apply lib_items_names in Hi. specialize (H2 i Hi). apply andb_prop in H2 as [H2 _]. apply andb_prop in H2 as [H2 _]. destruct (yi_rev i); [eauto|discriminate H2].
  - intros i j Hi Hj E. apply lib_items_names in Hi, Hj. specialize (H2 i Hi). apply andb_prop in H2 as [_ H2]. rewrite forallb_forall in H2. specialize (H2 j Hj).
    unfold same_itemb in H2. rewrite E, String.eqb_refl in H2. destruct (yitem_dec i j); [assumption|discriminate H2].
  - intros s g m Hs Hg Hm. exact (proj2 (proj2 (G s g Hs Hg) m Hm)).
  - intros i Hi. apply lib_items_names in Hi. specialize (H2 i Hi). apply andb_prop in H2 as [H2 _]. apply andb_prop in H2 as [_ H2]. apply existsb_exists in H2 as ([n t] & A & B).
    apply String.eqb_eq in B. cbn in B. subst n. eauto.
  - apply nodupb_ok. exact H3.
  - intros n t Hn. specialize (H4 _ Hn). cbn in H4. destruct (has_char "@" n); [discriminate H4|reflexivity].
Qed.
Definition puts (ops : list cop) : list (sinfo * ylib * list (string * string)) :=
  flat_map (fun o => match o with Put s l sch => [(s, l, sch)] | _ => [] end) ops.
Lemma in_puts ops s l sch : In (Put s l sch) ops <-> In (s, l, sch) (puts ops).
Proof.
  unfold puts. rewrite in_flat_map. split.
  - intros H. exists (Put s l sch). split; [exact H|left; reflexivity].
  - intros (o & H1 & H2). destruct o; cbn in H2; try contradiction. destruct H2 as [H2|[]]. injection H2 as -> -> ->. exact H1.
Qed.
Lemma all_complete_check ops : forallb (fun p => complete_check (snd (fst p)) (snd p)) (puts ops) = true -> all_complete ops.
Proof. intros H s lib sch Hi. apply in_puts in Hi. rewrite forallb_forall in H. apply complete_check_ok. exact (H _ Hi). Qed.
Lemma holds_in ops s cid : holds ops s cid -> exists s' lib sch, In (s', lib, sch) (puts ops) /\ same_subscription s s' /\ yl_cid lib = cid.
Proof. intros (b & s' & lib & sch & a & -> & A & B & _). exists s', lib, sch. split; [|auto]. apply in_puts. apply in_or_app. right. left. reflexivity. Qed.
Lemma settled_check ops : forallb (fun p => forallb (fun q => negb (same_sub (fst (fst p)) (fst (fst q))) || String.eqb (yl_cid (snd (fst p))) (yl_cid (snd (fst q)))) (puts ops)) (puts ops) = true -> settled ops.
Proof.
  intros H before s lib sch after cid -> Hh. apply holds_in in Hh as (s' & lib' & sch' & A & B & <-). rewrite forallb_forall in H.
  assert (X : In (s, lib, sch) (puts (before ++ Put s lib sch :: after))) by (apply in_puts, in_or_app; right; left; reflexivity).
  assert (Y : In (s', lib', sch') (puts (before ++ Put s lib sch :: after))) by (apply in_puts, in_or_app; left; apply in_puts; exact A).
  specialize (H _ X). rewrite forallb_forall in H. specialize (H _ Y). cbn [fst snd] in H. apply same_key in B. destruct (same_sub_spec s s'); [|congruence]. cbn in H. apply String.eqb_eq in H. exact H.
Qed.
Lemma ids_check ops : forallb (fun p => forallb (fun q => negb (id_eqb (id_of (fst (fst p))) (id_of (fst (fst q)))) || same_sub (fst (fst p)) (fst (fst q))) (puts ops)) (puts ops) = true -> ids_distinct ops.
Proof.
  intros H before after s1 c1 s2 c2 -> H1 H2 E1 E2. apply holds_in in H1 as (a1 & l1 & h1 & A1 & B1 & _). apply holds_in in H2 as (a2 & l2 & h2 & A2 & B2 & _). rewrite forallb_forall in H.
  assert (X : forall p, In p (puts before) -> In p (puts (before ++ after))) by (intros p Hp; unfold puts; rewrite flat_map_app; apply in_or_app; auto).
  specialize (H _ (X _ A1)). rewrite forallb_forall in H. specialize (H _ (X _ A2)). cbn [fst] in H. apply same_key in B1, B2. apply same_key. rewrite B1, B2.
  destruct (id_eqb_spec (id_of a1) (id_of a2)) as [I|I].
  - cbn in H. destruct (same_sub_spec a1 a2); [assumption|discriminate H].
  - exfalso. apply I. unfold id_of. unfold key_of in B1, B2. congruence.
Qed.
Lemma own_check ops : forallb (fun p => String.eqb (si_cid (fst (fst p))) (yl_cid (snd (fst p)))) (puts ops) = true -> own_cids ops.
Proof. intros H s lib sch Hi. apply in_puts in Hi. rewrite forallb_forall in H. specialize (H _ Hi). cbn in H. apply String.eqb_eq in H. exact H. Qed.
