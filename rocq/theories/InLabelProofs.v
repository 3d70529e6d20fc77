From Verif Require Import Base MapLib EnModel EnSpec EnProofs InModel InSpec.

(* ---- the label cache ---- *)
Definition inner_ok (m : lmap) : Prop := m <> [] /\ NoDup (mkeys m) /\ Forall (fun e => fst (snd (snd e)) = fst e) m.
Definition lwf (c : lcache) : Prop := Forall (fun e => inner_ok (snd e)) c.
Definition lupd (cur : option (N * label)) (x : N * label) : option (N * label) :=
  match cur with Some (w0, l0) => if w0 <=? fst x then Some x else Some (w0, l0) | None => Some x end.
Fixpoint last_named (name : N) (ls : list label) : option label :=
  match ls with
  | [] => None
  | l :: ls' => match last_named name ls' with Some x => Some x | None => if fst l =? name then Some l else None end
  end.
Lemma last_named_some name ls l : last_named name ls = Some l <-> fst l = name /\ exists l1 l2, ls = l1 ++ l :: l2 /\ ~ In name (map fst l2).
Proof.
  revert l. induction ls as [|x ls IH]; intros l; cbn [last_named].
  - split; [discriminate|]. intros (_ & [|? ?] & ? & ? & _); discriminate.
  - destruct (last_named name ls) as [y|] eqn:E.
    + split.
      * intros [= ->]. assert (H' := proj1 (IH l) eq_refl). destruct H' as (H1 & l1 & l2 & -> & H2). split; [exact H1|]. exists (x :: l1), l2. auto.
      * intros (H1 & [|z l1] & l2 & H2 & H3); cbn in H2; injection H2 as -> ->.
        -- exfalso. destruct (proj1 (IH y) eq_refl) as (Hy & m1 & m2 & -> & _). apply H3. rewrite map_app. apply in_or_app. right. now left.
        -- apply IH. split; [exact H1|]. exists l1, l2. auto.
    + assert (Hno : ~ In name (map fst ls)).
      { intros Hi. clear - E Hi. induction ls as [|z ls IH]; [destruct Hi|]. cbn [last_named] in E. destruct (last_named name ls); [discriminate|]. destruct Hi as [<-|Hi]; [rewrite N.eqb_refl in E; discriminate|]. now apply IH. }
      destruct (N.eqb_spec (fst x) name) as [Hx|Hx].
      * split.
        -- intros [= <-]. split; [exact Hx|]. exists [], ls. auto.
        -- intros (H1 & [|z l1] & l2 & H2 & H3); cbn in H2; injection H2 as -> ->; [reflexivity|]. exfalso. apply Hno. rewrite map_app. apply in_or_app. right. now left.
      * split; [discriminate|]. intros (H1 & [|z l1] & l2 & H2 & H3); cbn in H2; injection H2 as -> ->; [congruence|]. exfalso. apply Hno. rewrite map_app. apply in_or_app. right. now left.
Qed.
Lemma last_named_none name ls : last_named name ls = None <-> ~ In name (map fst ls).
Proof.
  induction ls as [|x ls IH]; cbn [last_named map]; [split; [auto|reflexivity]|].
  destruct (last_named name ls) as [y|]; [split; [discriminate|]; intros H; exfalso; apply H; right; destruct (in_dec N.eq_dec name (map fst ls)); [assumption|]; apply IH in n; discriminate|].
  destruct (N.eqb_spec (fst x) name) as [<-|Hn]; [split; [discriminate|]; intros H; exfalso; apply H; now left|]. split; [|reflexivity]. intros _ [H|H]; [congruence|]. now apply IH.
Qed.
Lemma put_label_get w (m : lmap) l name : mget N.eqb name (put_label w m l) = if fst l =? name then lupd (mget N.eqb name m) (w, l) else mget N.eqb name m.
Proof.
  unfold put_label, lupd. cbn [fst]. destruct (N.eqb_spec (fst l) name) as [E|Hn].
  - rewrite <- E. destruct (mget N.eqb (fst l) m) as [[w0 l0]|] eqn:Em; [destruct (w0 <=? w)|]; rewrite ?(mget_mset _ N.eqb_spec), ?N.eqb_refl; auto.
  - assert (Hne : (name =? fst l) = false) by (apply N.eqb_neq; congruence).
    destruct (mget N.eqb (fst l) m) as [[w0 l0]|]; [destruct (w0 <=? w)|]; rewrite ?(mget_mset _ N.eqb_spec), ?Hne; auto.
Qed.
Lemma put_labels_get w ls name : forall m : lmap, mget N.eqb name (fold_left (put_label w) ls m) =
  match last_named name ls with Some l => lupd (mget N.eqb name m) (w, l) | None => mget N.eqb name m end.
Proof.
  induction ls as [|l ls IH]; intros m; [reflexivity|]. cbn [fold_left last_named]. rewrite IH, put_label_get.
  destruct (last_named name ls) as [l'|].
  - destruct (fst l =? name); [|reflexivity]. unfold lupd; cbn [fst]. destruct (mget N.eqb name m) as [[w0 l0]|]; [|now rewrite N.leb_refl]. destruct (w0 <=? w) eqn:E; [now rewrite N.leb_refl|now rewrite E].
  - now destruct (fst l =? name).
Qed.
Definition lgone (w : N) (hit : bool) (x : option (N * label)) : option (N * label) :=
  match x with Some (w0, l0) => if (w0 <=? w) && hit then None else x | None => None end.
Lemma del_label_get w (m : lmap) n name : mget N.eqb name (del_label w m n) = lgone w (n =? name) (mget N.eqb name m).
Proof.
  unfold del_label, lgone. destruct (N.eqb_spec n name) as [->|Hn].
  - destruct (mget N.eqb name m) as [[w0 l0]|] eqn:E; [|exact E]. rewrite andb_true_r. destruct (w0 <=? w); [|exact E]. rewrite (mget_mrem _ N.eqb_spec). now rewrite N.eqb_refl.
  - assert (H : mget N.eqb name (match mget N.eqb n m with Some (w0, _) => if w0 <=? w then mrem N.eqb n m else m | None => m end) = mget N.eqb name m).
    { destruct (mget N.eqb n m) as [[w0 l0]|]; [destruct (w0 <=? w)|]; auto. rewrite (mget_mrem _ N.eqb_spec). destruct (N.eqb_spec name n); congruence. }
    transitivity (mget N.eqb name m); [exact H|]. clear H. destruct (mget N.eqb name m) as [[w0 l0]|]; [now rewrite andb_false_r|reflexivity].
Qed.
Lemma del_labels_get w ns name : forall m : lmap, mget N.eqb name (fold_left (del_label w) ns m) = lgone w (existsb (N.eqb name) ns) (mget N.eqb name m).
Proof.
  induction ns as [|n ns IH]; intros m; cbn [fold_left existsb].
  - unfold lgone. destruct (mget N.eqb name m) as [[w0 l0]|]; [now rewrite andb_false_r|reflexivity].
  - rewrite IH, del_label_get. rewrite (N.eqb_sym name n). unfold lgone. destruct (mget N.eqb name m) as [[w0 l0]|]; [|reflexivity].
    destruct (w0 <=? w) eqn:E, (n =? name); cbn [andb orb]; rewrite ?E; try reflexivity.
Qed.
Lemma lstored_tidy ip (m : lmap) c ip' name : lstored (tidy_up ip m c) ip' name = if ip' =? ip then mget N.eqb name m else lstored c ip' name.
Proof.
  unfold tidy_up, lstored. destruct m as [|e m]; cbn [is_nil].
  - rewrite (mget_mrem _ N.eqb_spec). now destruct (ip' =? ip).
  - rewrite (mget_mset _ N.eqb_spec). now destruct (ip' =? ip).
Qed.
Lemma mget_filter_lt w (m : lmap) name : NoDup (mkeys m) -> mget N.eqb name (filter (fun e => w <? fst (snd e)) m) = lgone w true (mget N.eqb name m).
Proof.
  intros H. rewrite (mget_filter _ N.eqb_spec) by exact H. destruct (mget N.eqb name m) as [[w0 l0]|]; [|reflexivity]. unfold lgone; cbn [fst snd]. rewrite andb_true_r.
  destruct (N.ltb_spec w w0), (N.leb_spec w0 w); try reflexivity; lia.
Qed.
Lemma lwf_get c ip (m : lmap) : lwf c -> mget N.eqb ip c = Some m -> inner_ok m.
Proof. intros H E. now apply (mget_Forall _ N.eqb_spec _ _ _ _ H) in E. Qed.
Lemma put_label_ok w (m : lmap) l : NoDup (mkeys m) -> Forall (fun e => fst (snd (snd e)) = fst e) m -> inner_ok (put_label w m l).
Proof.
  intros H1 H2. assert (Hs : inner_ok (mset N.eqb (fst l) (w, l) m)).
  { split; [apply mset_nonempty|]. split; [now apply (NoDup_mset _ N.eqb_spec)|]. apply (Forall_mset _ N.eqb_spec); [exact H2|reflexivity]. }
  unfold put_label. destruct (mget N.eqb (fst l) m) as [[w0 l0]|] eqn:E; [destruct (w0 <=? w)|]; auto. split; [intros ->; discriminate|auto].
Qed.
Lemma put_labels_ok w ls : ls <> [] -> forall m : lmap, NoDup (mkeys m) -> Forall (fun e => fst (snd (snd e)) = fst e) m -> inner_ok (fold_left (put_label w) ls m).
Proof.
  induction ls as [|l ls IH]; intros Hn m H1 H2; [congruence|]. cbn [fold_left]. destruct (put_label_ok w m l H1 H2) as (Ha & Hb & Hc). destruct ls as [|l' ls]; [now split|]. apply IH; [discriminate|auto|auto].
Qed.
Lemma del_labels_ok w ns : forall m : lmap, NoDup (mkeys m) /\ Forall (fun e => fst (snd (snd e)) = fst e) m ->
  NoDup (mkeys (fold_left (del_label w) ns m)) /\ Forall (fun e => fst (snd (snd e)) = fst e) (fold_left (del_label w) ns m).
Proof.
  induction ns as [|n ns IH]; intros m H; [exact H|]. cbn [fold_left]. apply IH. unfold del_label. destruct (mget N.eqb n m) as [[w0 l0]|]; [destruct (w0 <=? w)|]; auto.
  split; [now apply (NoDup_mrem _ N.eqb_spec)|now apply Forall_mrem].
Qed.
Lemma lwf_tidy ip (m : lmap) c : lwf c -> NoDup (mkeys m) /\ Forall (fun e => fst (snd (snd e)) = fst e) m -> lwf (tidy_up ip m c).
Proof.
  intros Hc Hm. unfold tidy_up. destruct m as [|e m]; cbn [is_nil]; [now apply Forall_mrem|]. apply (Forall_mset _ N.eqb_spec); [exact Hc|]. split; [discriminate|exact Hm].
Qed.
Lemma lwf_op c o : lwf c -> lwf (apply_label_op c o).
Proof.
  intros H. destruct o as [ip w ls|ip w ns|ip w]; cbn [apply_label_op].
  - destruct ls as [|l ls]; [exact H|]. cbn [is_nil]. apply (Forall_mset _ N.eqb_spec); [exact H|]. cbn [snd].
    destruct (mget N.eqb ip c) as [m|] eqn:E; [destruct (lwf_get _ _ _ H E) as (_ & ? & ?)|]; apply put_labels_ok; auto; try discriminate; constructor.
  - destruct ns as [|n ns]; [exact H|]. cbn [is_nil]. destruct (mget N.eqb ip c) as [m|] eqn:E; [|exact H]. apply lwf_tidy; [exact H|]. apply del_labels_ok. now destruct (lwf_get _ _ _ H E) as (_ & ? & ?).
  - destruct (mget N.eqb ip c) as [m|] eqn:E; [|exact H]. apply lwf_tidy; [exact H|]. destruct (lwf_get _ _ _ H E) as (_ & H1 & H2). split; [now apply NoDup_filter_keys|].
    apply Forall_forall. intros x Hx. apply filter_In in Hx as [Hx _]. rewrite Forall_forall in H2. auto.
Qed.
Lemma lwf_ops ops : lwf (apply_label_ops ops).
Proof.
  unfold apply_label_ops. assert (H : lwf []) by constructor. revert H. generalize (@nil (N * lmap)). induction ops as [|o ops IH]; intros c H; [exact H|]. cbn [fold_left]. apply IH. now apply lwf_op.
Qed.
Lemma lstored_op c o ip name : lwf c -> lstored (apply_label_op c o) ip name =
  if ip =? l_ip o then
    match o with
    | LUpsert _ w ls => match last_named name ls with Some l => lupd (lstored c ip name) (w, l) | None => lstored c ip name end
    | LDelete _ w ns => lgone w (existsb (N.eqb name) ns) (lstored c ip name)
    | LDeleteAll _ w => lgone w true (lstored c ip name)
    end
  else lstored c ip name.
Proof.
  intros Hw. destruct o as [ip' w ls|ip' w ns|ip' w]; cbn [apply_label_op l_ip].
  - destruct ls as [|l ls].
    + cbn. now destruct (ip =? ip').
    + cbn [is_nil]. unfold lstored at 1. rewrite (mget_mset _ N.eqb_spec). destruct (N.eqb_spec ip ip') as [<-|]; [|reflexivity].
      rewrite put_labels_get. unfold lstored. destruct (mget N.eqb ip c); reflexivity.
  - destruct ns as [|n ns].
    + cbn [is_nil existsb]. destruct (ip =? ip'); [|reflexivity]. unfold lgone. destruct (lstored c ip name) as [[w0 l0]|]; [now rewrite andb_false_r|reflexivity].
    + cbn [is_nil]. destruct (mget N.eqb ip' c) as [m|] eqn:E.
      * rewrite lstored_tidy. destruct (N.eqb_spec ip ip') as [->|]; [|reflexivity]. rewrite del_labels_get. unfold lstored. now rewrite E.
      * destruct (N.eqb_spec ip ip') as [->|]; [|reflexivity]. unfold lstored. now rewrite E.
  - destruct (mget N.eqb ip' c) as [m|] eqn:E.
    + rewrite lstored_tidy. destruct (N.eqb_spec ip ip') as [->|]; [|reflexivity]. rewrite mget_filter_lt by now destruct (lwf_get _ _ _ Hw E) as (_ & ? & _). unfold lstored. now rewrite E.
    + destruct (N.eqb_spec ip ip') as [->|]; [|reflexivity]. unfold lstored. now rewrite E.
Qed.
Lemma label_op_law c o ip name : lwf c ->
  (l_ip o = ip -> label_after name o (lstored c ip name) (lstored (apply_label_op c o) ip name)) /\
  (l_ip o <> ip -> lstored (apply_label_op c o) ip name = lstored c ip name).
Proof.
  intros Hw. rewrite lstored_op by exact Hw. destruct (N.eqb_spec ip (l_ip o)) as [->|Hn]; [|split; [congruence|reflexivity]]. split; [|congruence]. intros _.
  destruct o as [ip w ls|ip w ns|ip w]; cbn [l_ip].
  - destruct (last_named name ls) as [l|] eqn:E.
    + apply last_named_some in E. assert (Hwr : lwrites name (LUpsert ip w ls) w l) by (cbn; auto).
      destruct (lstored c ip name) as [[w0 l0]|]; cbn [lupd fst]; [|now apply LA_write_empty].
      destruct (N.leb_spec w0 w); [now apply (LA_write_over _ _ w l)|now apply (LA_write_low _ _ w l)].
    + apply last_named_none in E. apply LA_none; [|intros ? []]. intros w' l (_ & <- & l1 & l2 & -> & _). apply E. rewrite map_app. apply in_or_app. right. now left.
  - destruct (existsb (N.eqb name) ns) eqn:E.
    + apply existsb_ies in E. assert (He : lerases name (LDelete ip w ns) w) by (cbn; auto). destruct (lstored c ip name) as [[w0 l0]|]; cbn [lgone]; [|now apply (LA_erase_empty _ _ w)].
      rewrite andb_true_r. destruct (N.leb_spec w0 w); [now apply (LA_erase _ _ w)|now apply (LA_erase_low _ _ w)].
    + assert (Hg : lgone w false (lstored c ip name) = lstored c ip name) by (unfold lgone; destruct (lstored c ip name) as [[w0 l0]|]; [now rewrite andb_false_r|reflexivity]).
      rewrite Hg. apply LA_none; [intros ? ? []|]. intros w' [_ Hi]. apply existsb_ies in Hi. congruence.
  - assert (He : lerases name (LDeleteAll ip w) w) by reflexivity. destruct (lstored c ip name) as [[w0 l0]|]; cbn [lgone]; [|now apply (LA_erase_empty _ _ w)].
    rewrite andb_true_r. destruct (N.leb_spec w0 w); [now apply (LA_erase _ _ w)|now apply (LA_erase_low _ _ w)].
Qed.
Lemma message_labels_ok c ip : lwf c ->
  match message_labels c ip with
  | None => forall name, lstored c ip name = None
  | Some l => l <> [] /\ NoDup (map fst l) /\ forall x, In x l <-> exists w, lstored c ip (fst x) = Some (w, x)
  end.
Proof.
  intros Hw. unfold message_labels, lstored. destruct (mget N.eqb ip c) as [m|] eqn:E; [|reflexivity]. destruct (lwf_get _ _ _ Hw E) as (Hn & Hd & Hf).
  split; [destruct m; [congruence|discriminate]|].
  assert (Hk : map fst (map snd (mvals m)) = mkeys m).
  { unfold mvals, mkeys. rewrite !map_map. apply map_ext_in. intros e He. rewrite Forall_forall in Hf. now apply Hf. }
  split; [now rewrite Hk|]. intros x. split.
  - intros Hx. apply in_map_iff in Hx as ([w x'] & Hx & Hi). cbn in Hx. subst x'. unfold mvals in Hi. apply in_map_iff in Hi as ([n v] & Hv & Hi). cbn in Hv. subst v.
    rewrite Forall_forall in Hf. pose proof (Hf _ Hi) as Hnm. cbn in Hnm. subst n. exists w. now apply (In_mget _ N.eqb_spec).
  - intros (w & Hx). apply (mget_In _ N.eqb_spec) in Hx. apply in_map_iff. exists (w, x). split; [reflexivity|]. unfold mvals. apply in_map_iff. exists (fst x, (w, x)). auto.
Qed.
