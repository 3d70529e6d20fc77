From Verif Require Import Base BaseLemmas MapLib AgModel AgSpec.
From Coq Require Import Permutation.

Lemma value_eqb_spec a b : reflect (a = b) (value_eqb a b).
Proof.
  destruct a as [x|x], b as [y|y]; cbn; try (right; congruence).
  - destruct (N.eqb_spec x y); [left|right]; congruence.
  - destruct (list_eqb_spec _ N.eqb_spec x y); [left|right]; congruence.
Qed.
Lemma ofield_eqb_spec a b : reflect (a = b) (ofield_eqb a b).
Proof.
  destruct a as [a|], b as [b|]; cbn; try (right; congruence); [|now left].
  destruct (pair_eqb_spec _ _ N.eqb_spec value_eqb_spec a b); [left|right]; congruence.
Qed.
Lemma ckey_eqb_spec a b : reflect (a = b) (ckey_eqb a b).
Proof.
  destruct a as [a1 a2 a3], b as [b1 b2 b3]; unfold ckey_eqb; cbn.
  destruct (N.eqb_spec a1 b1) as [->|]; [|right; congruence]. destruct (Bool.eqb_spec a2 b2) as [->|]; [|right; congruence].
  destruct (list_eqb_spec _ ofield_eqb_spec a3 b3) as [->|]; [left|right]; congruence.
Qed.
Lemma fref_eqb_spec a b : reflect (a = b) (fref_eqb a b).
Proof. apply (pair_eqb_spec _ _ N.eqb_spec N.eqb_spec). Qed.

Definition count (cnt : list (N * N)) (ie : N) : N := match mget N.eqb ie cnt with Some n => n | None => 0 end.
Lemma mget_index fs : forall cnt ie i,
  mget fref_eqb (ie, i) (index_from cnt fs) =
  if i <? count cnt ie then None else nth_error (filter (fun f => fst f =? ie) fs) (N.to_nat (i - count cnt ie)).
Proof.
  induction fs as [|f fs IH]; intros cnt ie i.
  - cbn [index_from mget filter]. destruct (i <? count cnt ie); [reflexivity|]. now destruct (N.to_nat (i - count cnt ie)).
  - cbn [index_from]. fold (count cnt (fst f)). cbn [mget]. rewrite IH. clear IH.
    unfold fref_eqb, pair_eqb; cbn [fst snd filter].
    assert (Hc : count (mset N.eqb (fst f) (count cnt (fst f) + 1) cnt) ie = if ie =? fst f then count cnt ie + 1 else count cnt ie).
    { unfold count at 1. rewrite (mget_mset _ N.eqb_spec). destruct (N.eqb_spec ie (fst f)) as [->|]; reflexivity. }
    rewrite Hc. rewrite (N.eqb_sym (fst f) ie). destruct (N.eqb_spec ie (fst f)) as [He|He]; cbn [andb].
    + subst ie. destruct (N.eqb_spec i (count cnt (fst f))) as [->|Hi].
      * rewrite N.ltb_irrefl, N.sub_diag. reflexivity.
      * destruct (N.ltb_spec i (count cnt (fst f) + 1)), (N.ltb_spec i (count cnt (fst f))); try lia; [reflexivity|].
        replace (N.to_nat (i - count cnt (fst f))) with (S (N.to_nat (i - (count cnt (fst f) + 1)))) by lia. reflexivity.
    + reflexivity.
Qed.
Lemma lookup_occurrence fs r : lookup fs r = occurrence fs r.
Proof.
  destruct r as [ie i]. unfold lookup, occurrence. rewrite mget_index. change (count [] ie) with 0. rewrite N.sub_0_r.
  destruct (N.ltb_spec i 0); [lia|reflexivity].
Qed.
Lemma occurrence_ie fs r f : occurrence fs r = Some f -> fst f = fst r.
Proof. unfold occurrence. intros H. apply nth_error_In in H. apply filter_In in H as [_ H]. now apply N.eqb_eq in H. Qed.

(* ---- sets ---- *)
Lemma set_add_spec l x : (forall y, In y (set_add l x) <-> In y l \/ y = x) /\ (NoDup l -> NoDup (set_add l x)).
Proof.
  unfold set_add. destruct (existsb (N.eqb x) l) eqn:E.
  - apply existsb_exists in E as (y & Hy & Hxy). apply N.eqb_eq in Hxy. subst y. split; [|auto]. intros y. split; [auto|]. intros [H| ->]; auto.
  - assert (Hn : ~ In x l).
    { intros H. assert (existsb (N.eqb x) l = true) by (apply existsb_exists; exists x; split; [exact H|apply N.eqb_refl]). congruence. }
    split.
    + intros y. rewrite in_app_iff. cbn. intuition.
    + intros H. apply (Permutation_NoDup (l := x :: l)); [apply Permutation_cons_append|now constructor].
Qed.
Lemma set_extend_one l x : set_extend l [x] = set_add l x.
Proof. reflexivity. Qed.

Section P.
Context (bits : N -> N) (keys : list fref) (sel : list (fref * aggop)).
Notation reduce := (reduce bits sel).
Notation push := (push bits sel).
Notation pushes := (pushes bits sel).

Definition rec1 (o : obs) : crec :=
  mkRec [o_port o] [o_dom o] [o_tmpl o] (o_exp o) (o_exp o) (o_col o) (o_col o) (if o_ipfix o then 0 else o_up o)
    (map (fun s => occurrence (o_fields o) (fst s)) sel) 1.
Definition item (o : obs) : ckey * crec := (key_of keys o, rec1 o).
Lemma explode_items ins : flat_map (explode keys sel) ins = map item (observations ins).
Proof.
  induction ins as [|i ins IH]; [reflexivity|]. unfold observations. cbn [flat_map]. rewrite map_app. fold (observations ins). rewrite <- IH. f_equal.
  unfold explode. rewrite map_map. apply map_ext. intros [t fs]. unfold item, key_of, rec1. cbn.
  f_equal; [f_equal; apply map_ext; intros r; apply lookup_occurrence|].
  f_equal. apply map_ext. intros s. apply lookup_occurrence.
Qed.

(* ---- one field ---- *)
Definition field_ok (g : list obs) (s : fref * aggop) (x : option field) : Prop :=
  match x with
  | None => forall o, In o g -> occurrence (o_fields o) (fst s) = None
  | Some f => fst f = fst (fst s) /\ numbers (fst s) g <> [] /\ exists v, snd f = VNum v /\ aggregate_of bits (fst (fst s)) (snd s) (numbers (fst s) g) v
  end.
Lemma numbers_app r a b : numbers r (a ++ b) = numbers r a ++ numbers r b.
Proof. unfold numbers. apply flat_map_app. Qed.
Lemma sum_app a b : sum (a ++ b) = sum a + sum b.
Proof. unfold sum. induction a as [|x a IH]; cbn in *; [reflexivity|]. rewrite IH. lia. Qed.
Lemma agg_one ie op n : n < 2 ^ bits ie -> aggregate_of bits ie op [n] n.
Proof.
  intros H. destruct op; cbn.
  - rewrite N.add_0_r. symmetry. now apply N.mod_small.
  - split; [now left|]. intros m [<-|[]]. lia.
  - split; [now left|]. intros m [<-|[]]. lia.
  - intros i. split; [intros Hi; exists n; auto|]. intros (m & [<-|[]] & Hm). exact Hm.
Qed.
Lemma agg_step ie op ns v n : ns <> [] -> n < 2 ^ bits ie -> aggregate_of bits ie op ns v ->
  exists w, combine bits op ie (VNum v) (VNum n) = VNum w /\ aggregate_of bits ie op (ns ++ [n]) w.
Proof.
  intros Hne Hn. destruct op; cbn [aggregate_of combine].
  - intros ->. eexists. split; [reflexivity|]. rewrite sum_app. cbn. rewrite N.add_0_r. rewrite N.add_mod_idemp_l; [reflexivity|]. apply N.pow_nonzero. lia.
  - intros [Hi Hl]. eexists. split; [reflexivity|]. split.
    + apply in_app_iff. destruct (N.min_spec v n) as [[_ ->]|[_ ->]]; [now left|right; now left].
    + intros m Hm. apply in_app_iff in Hm as [Hm|[<-|[]]]; [specialize (Hl _ Hm)|]; lia.
  - intros [Hi Hl]. eexists. split; [reflexivity|]. split.
    + apply in_app_iff. destruct (N.max_spec v n) as [[_ ->]|[_ ->]]; [right; now left|now left].
    + intros m Hm. apply in_app_iff in Hm as [Hm|[<-|[]]]; [specialize (Hl _ Hm)|]; lia.
  - intros Hv. eexists. split; [reflexivity|]. intros i. rewrite N.lor_spec, orb_true_iff, Hv. split.
    + intros [(m & Hm & Ht)|Ht]; [exists m|exists n]; (split; [apply in_app_iff; cbn; auto|exact Ht]).
    + intros (m & Hm & Ht). apply in_app_iff in Hm as [Hm|[<-|[]]]; [left; eauto|now right].
Qed.
Lemma fields_step g o : (forall r op f, In (r, op) sel -> occurrence (o_fields o) r = Some f -> exists n, snd f = VNum n /\ n < 2 ^ bits (fst r)) ->
  forall ls, Forall2 (field_ok g) sel ls ->
  exists ls', reduce_fields bits sel ls (map (fun s => occurrence (o_fields o) (fst s)) sel) = Some ls' /\ Forall2 (field_ok (g ++ [o])) sel ls'.
Proof.
  induction sel as [|[r op] sl IH]; intros Hnum ls Hf; inversion Hf as [|? x ? ls0 Hx Hf']; subst; [exists []; split; [reflexivity|constructor]|].
  destruct (IH ltac:(intros r' op' f Hin; apply (Hnum r' op' f); now right) ls0 Hf') as (ls' & Hr & Hl). cbn [map fst reduce_fields]. rewrite Hr.
  eexists. split; [reflexivity|]. constructor; [|exact Hl]. clear IH Hr Hl Hf Hf'.
  specialize (fun f => Hnum r op f (or_introl eq_refl)).
  destruct (occurrence (o_fields o) r) as [f|] eqn:Eo.
  - pose proof (occurrence_ie _ _ _ Eo) as Hie. destruct (Hnum f eq_refl) as (n & Hn & Hb).
    assert (Hns : numbers r [o] = [n]) by (unfold numbers; cbn; rewrite Eo; destruct f as [a b]; cbn in Hn; now rewrite Hn).
    destruct x as [lf|].
    + destruct Hx as (He & Hne & v & Hv & Ha). cbn [fst snd] in *. rewrite He, Hie, N.eqb_refl. cbn [field_ok fst snd]. split; [reflexivity|].
      rewrite numbers_app, Hns. split; [now destruct (numbers r g)|]. rewrite Hv, Hn. now apply agg_step.
    + cbn [field_ok fst snd] in *. split; [exact Hie|]. rewrite numbers_app, Hns.
      assert (Hg : numbers r g = []).
      { unfold numbers. clear - Hx. induction g as [|a g IH]; [reflexivity|]. cbn. rewrite (Hx a) by now left. apply IH. intros. apply Hx. now right. }
      rewrite Hg. split; [discriminate|]. exists n. split; [exact Hn|]. now apply agg_one.
  - assert (Hns : numbers r [o] = []) by (unfold numbers; cbn; now rewrite Eo). destruct x as [lf|].
    + cbn [field_ok fst snd] in *. rewrite numbers_app, Hns, app_nil_r. exact Hx.
    + cbn [field_ok fst] in *. intros o' Hin. apply in_app_iff in Hin as [Hin|[<-|[]]]; [auto|exact Eo].
Qed.
Lemma least_step {A} (f : A -> N) g v o : least f g v -> least f (g ++ [o]) (N.min v (f o)).
Proof.
  intros [(x & Hx & Hv) Hl]. split.
  - destruct (N.min_spec v (f o)) as [[_ ->]|[_ ->]]; [exists x|exists o]; (split; [apply in_app_iff; cbn; auto|auto]).
  - intros y Hy. apply in_app_iff in Hy as [Hy|[<-|[]]]; [specialize (Hl _ Hy)|]; lia.
Qed.
Lemma greatest_step {A} (f : A -> N) g v o : greatest f g v -> greatest f (g ++ [o]) (N.max v (f o)).
Proof.
  intros [(x & Hx & Hv) Hl]. split.
  - destruct (N.max_spec v (f o)) as [[_ ->]|[_ ->]]; [exists o|exists x]; (split; [apply in_app_iff; cbn; auto|auto]).
  - intros y Hy. apply in_app_iff in Hy as [Hy|[<-|[]]]; [specialize (Hl _ Hy)|]; lia.
Qed.
Lemma least_one {A} (f : A -> N) o : least f [o] (f o).
Proof. split; [exists o; cbn; auto|]. intros x [<-|[]]. lia. Qed.
Lemma greatest_one {A} (f : A -> N) o : greatest f [o] (f o).
Proof. split; [exists o; cbn; auto|]. intros x [<-|[]]. lia. Qed.
Definition num_obs (o : obs) : Prop := forall r op f, In (r, op) sel -> occurrence (o_fields o) r = Some f -> exists n, snd f = VNum n /\ n < 2 ^ bits (fst r).
Lemma ports_step (f : obs -> N) l g o : (forall p, In p l <-> exists x, In x g /\ f x = p) ->
  forall p, In p (set_add l (f o)) <-> exists x, In x (g ++ [o]) /\ f x = p.
Proof.
  intros H p. rewrite (proj1 (set_add_spec l (f o))), H. split.
  - intros [(x & Hx & E)|E]; [exists x|exists o]; (split; [apply in_app_iff; cbn; auto|auto]).
  - intros (x & Hx & E). apply in_app_iff in Hx as [Hx|[<-|[]]]; [left; eauto|auto].
Qed.
Lemma describes_one o : num_obs o -> describes bits sel [o] (rec1 o).
Proof.
  intros Hn. constructor; cbn [rec1 r_count r_ports r_doms r_tmpls r_min_exp r_max_exp r_min_col r_max_col r_up r_agg length].
  - reflexivity.
  - intros p. cbn. split; [intros [<-|[]]; eauto|intros (x & [<-|[]] & <-); auto].
  - intros p. cbn. split; [intros [<-|[]]; eauto|intros (x & [<-|[]] & <-); auto].
  - intros p. cbn. split; [intros [<-|[]]; eauto|intros (x & [<-|[]] & <-); auto].
  - repeat split; repeat constructor; auto.
  - apply least_one.
  - apply greatest_one.
  - apply least_one.
  - apply greatest_one.
  - exact (greatest_one (fun o => if o_ipfix o then 0 else o_up o) o).
  - unfold num_obs in Hn. induction sel as [|[r op] sl IH]; [constructor|]. cbn [map fst]. constructor.
    + destruct (occurrence (o_fields o) r) as [f|] eqn:Eo; cbn [fst snd].
      * destruct (Hn r op f (or_introl eq_refl) Eo) as (n & Hv & Hb).
        assert (Hns : numbers r [o] = [n]) by (unfold numbers; cbn; rewrite Eo; destruct f as [a b]; cbn in Hv; now rewrite Hv).
        rewrite Hns. split; [now apply occurrence_ie in Eo|]. split; [discriminate|]. exists n. split; [exact Hv|]. now apply agg_one.
      * intros x [<-|[]]. exact Eo.
    + apply IH. intros r' op' f Hin. apply (Hn r' op' f). now right.
Qed.
Lemma describes_step g o r : num_obs o -> describes bits sel g r -> exists r', reduce r (rec1 o) = Some r' /\ describes bits sel (g ++ [o]) r'.
Proof.
  intros Hn D. destruct (fields_step g o Hn (r_agg r) (d_agg _ _ _ _ D)) as (ls' & Hr & Hl).
  unfold AgModel.reduce. cbn [rec1 r_agg r_ports r_doms r_tmpls r_min_exp r_max_exp r_min_col r_max_col r_up r_count]. rewrite Hr. eexists. split; [reflexivity|].
  destruct D as [D1 D2 D3 D4 [D5a [D5b D5c]] D6 D7 D8 D9 Dup D10]. rewrite !set_extend_one.
  constructor; cbn [r_count r_ports r_doms r_tmpls r_min_exp r_max_exp r_min_col r_max_col r_up r_agg].
  - rewrite app_length, D1. cbn. lia.
  - now apply ports_step.
  - now apply ports_step.
  - now apply ports_step.
  - repeat split; now apply set_add_spec.
  - now apply least_step.
  - now apply greatest_step.
  - now apply least_step.
  - now apply greatest_step.
  - now apply (greatest_step (fun o => if o_ipfix o then 0 else o_up o)).
  - exact Hl.
Qed.

(* ---- the cache ---- *)
Definition good (done : list obs) (c : list (ckey * crec)) : Prop :=
  NoDup (mkeys c) /\ forall k, match mget ckey_eqb k c with None => group keys k done = [] | Some r => group keys k done <> [] /\ describes bits sel (group keys k done) r end.
Lemma group_app k a b : group keys k (a ++ b) = group keys k a ++ group keys k b.
Proof. unfold group. apply filter_app. Qed.
Lemma group_one k o : group keys k [o] = if ckey_eqb k (key_of keys o) then [o] else [].
Proof.
  unfold group. cbn. destruct (ckey_eqb_spec (key_of keys o) k), (ckey_eqb_spec k (key_of keys o)); congruence.
Qed.
Lemma push_good done c o : num_obs o -> good done c -> exists c', push c (item o) = Some c' /\ good (done ++ [o]) c'.
Proof.
  intros Hn [Hnd Hc]. unfold AgModel.push. cbn [item fst snd].
  pose proof (Hc (key_of keys o)) as Hk.
  assert (Hrest : forall r', describes bits sel (group keys (key_of keys o) done ++ [o]) r' ->
     good (done ++ [o]) (mset ckey_eqb (key_of keys o) r' c)).
  { intros r' D. split; [now apply (NoDup_mset _ ckey_eqb_spec)|]. intros k. rewrite (mget_mset _ ckey_eqb_spec), group_app, group_one.
    destruct (ckey_eqb_spec k (key_of keys o)) as [->|Hne].
    - split; [now destruct (group keys (key_of keys o) done)|exact D].
    - rewrite app_nil_r. apply Hc. }
  destruct (mget ckey_eqb (key_of keys o) c) as [r|].
  - destruct Hk as [_ D]. destruct (describes_step _ o r Hn D) as (r' & -> & D'). eauto.
  - eexists. split; [reflexivity|]. apply Hrest. rewrite Hk. now apply describes_one.
Qed.
Lemma pushes_good obss : Forall num_obs obss -> forall done c, good done c -> exists c', pushes c (map item obss) = Some c' /\ good (done ++ obss) c'.
Proof.
  induction 1 as [|o obss Ho _ IH]; intros done c Hg.
  - exists c. rewrite app_nil_r. auto.
  - cbn [map AgModel.pushes]. destruct (push_good done c o Ho Hg) as (c' & -> & Hg'). destruct (IH _ _ Hg') as (c'' & H & Hg''). exists c''. split; [exact H|].
    now rewrite <- app_assoc in Hg''.
Qed.
Lemma aggregate_good ins : numeric bits sel (observations ins) -> exists c, aggregate bits keys sel ins = Some c /\ good (observations ins) c.
Proof.
  intros Hn. unfold aggregate. rewrite explode_items. apply (pushes_good (observations ins)) with (done := []).
  - apply Forall_forall. intros o Ho r op f Hr Hf. now apply (Hn o r op f).
  - split; [constructor|]. intros k. reflexivity.
Qed.
(* ---- without the numeric hypothesis: never out of bounds ---- *)
Lemma reduce_fields_length sl : forall ls rs, length ls = length sl -> length rs = length sl -> exists xs, reduce_fields bits sl ls rs = Some xs /\ length xs = length sl.
Proof.
  induction sl as [|[r op] sl IH]; intros ls rs Hl Hr; [exists ls; auto|]. destruct ls as [|l ls], rs as [|x rs]; try discriminate.
  cbn [reduce_fields]. destruct (IH ls rs) as (xs & -> & Hx); [cbn in *; lia|cbn in *; lia|]. eexists. split; [reflexivity|]. cbn. lia.
Qed.
Lemma pushes_total items : Forall (fun i : ckey * crec => length (r_agg (snd i)) = length sel) items -> forall c,
  Forall (fun i : ckey * crec => length (r_agg (snd i)) = length sel) c -> pushes c items <> None.
Proof.
  induction 1 as [|i items Hi _ IH]; intros c Hc; [discriminate|]. cbn [AgModel.pushes].
  assert (Hset : forall r, length (r_agg r) = length sel -> Forall (fun i : ckey * crec => length (r_agg (snd i)) = length sel) (mset ckey_eqb (fst i) r c)).
  { intros r Hr. induction Hc as [|[k x] c Hx Hc0 IHc]; cbn; [repeat constructor; exact Hr|]. destruct (ckey_eqb (fst i) k); constructor; auto. }
  unfold AgModel.push. destruct (mget ckey_eqb (fst i) c) as [r|] eqn:E.
  - apply (mget_In _ ckey_eqb_spec) in E. rewrite Forall_forall in Hc. specialize (Hc _ E). cbn in Hc.
    unfold AgModel.reduce. destruct (reduce_fields_length sel (r_agg r) (r_agg (snd i)) Hc Hi) as (xs & -> & Hx). apply IH, Hset. exact Hx.
  - apply IH, Hset. exact Hi.
Qed.
Lemma aggregate_total ins : aggregate bits keys sel ins <> None.
Proof.
  unfold aggregate. apply pushes_total; [|constructor]. apply Forall_forall. intros x Hx. apply in_flat_map in Hx as (i & _ & Hx).
  unfold explode in Hx. apply in_map_iff in Hx as (tr & <- & _). cbn. apply map_length.
Qed.

(* ---- the flows are all counted ---- *)
Lemma total_mset_new k r c : mget ckey_eqb k c = None -> total (mset ckey_eqb k r c) = total c + r_count r.
Proof.
  unfold total. induction c as [|[k' x] c IH]; cbn [mget mset map sum fold_right snd]; intros H; [cbn; lia|].
  destruct (ckey_eqb k k'); [discriminate|]. cbn [map fold_right sum snd] in *. unfold sum in IH. rewrite IH by exact H. lia.
Qed.
Lemma total_mset_old k r r0 c : mget ckey_eqb k c = Some r0 -> total (mset ckey_eqb k r c) + r_count r0 = total c + r_count r.
Proof.
  unfold total. induction c as [|[k' x] c IH]; cbn [mget mset map sum fold_right snd]; intros H; [discriminate|].
  destruct (ckey_eqb k k'); [injection H as ->; cbn [map fold_right sum snd]; lia|]. cbn [map fold_right sum snd] in *. unfold sum in IH. specialize (IH H). lia.
Qed.
Lemma pushes_count items : Forall (fun i : ckey * crec => r_count (snd i) = 1) items -> forall c c', pushes c items = Some c' -> total c' = total c + blen items.
Proof.
  induction 1 as [|i items Hi _ IH]; intros c c'; cbn [AgModel.pushes]; [intros [= <-]; unfold blen; cbn [length]; lia|].
  destruct (push c i) as [c1|] eqn:Ep; [|discriminate]. intros H. rewrite (IH _ _ H). unfold AgModel.push in Ep.
  assert (total c1 = total c + 1); [|unfold blen in *; cbn [length]; lia].
  destruct (mget ckey_eqb (fst i) c) as [r|] eqn:Em.
  - unfold AgModel.reduce in Ep. destruct (reduce_fields _ _ _ _); [|discriminate]. injection Ep as <-.
    match goal with |- total (mset _ _ ?x _) = _ => pose proof (total_mset_old (fst i) x r c Em) as Ht; assert (Hx : r_count x = r_count r + 1) by (cbn [r_count]; now rewrite Hi) end.
    rewrite Hx in Ht. lia.
  - injection Ep as <-. rewrite total_mset_new by exact Em. lia.
Qed.
Lemma aggregate_count ins c : aggregate bits keys sel ins = Some c -> total c = blen (observations ins).
Proof.
  unfold aggregate. rewrite explode_items. intros H. apply pushes_count in H.
  - rewrite H. unfold total, blen. cbn. now rewrite map_length.
  - apply Forall_forall. intros x Hx. apply in_map_iff in Hx as (o & <- & _). reflexivity.
Qed.

(* ---- order ---- *)
Lemma least_unique {A} (f : A -> N) g g' v v' : Permutation g g' -> least f g v -> least f g' v' -> v = v'.
Proof.
  intros P [(x & Hx & <-) Hl] [(y & Hy & <-) Hl']. apply N.le_antisymm.
  - apply Hl. now apply (Permutation_in _ (Permutation_sym P)).
  - apply Hl'. now apply (Permutation_in _ P).
Qed.
Lemma greatest_unique {A} (f : A -> N) g g' v v' : Permutation g g' -> greatest f g v -> greatest f g' v' -> v = v'.
Proof.
  intros P [(x & Hx & <-) Hl] [(y & Hy & <-) Hl']. apply N.le_antisymm.
  - apply Hl'. now apply (Permutation_in _ P).
  - apply Hl. now apply (Permutation_in _ (Permutation_sym P)).
Qed.
Lemma numbers_perm r g g' : Permutation g g' -> Permutation (numbers r g) (numbers r g').
Proof. unfold numbers. intros P. now apply Permutation_flat_map. Qed.
Lemma sum_perm l l' : Permutation l l' -> sum l = sum l'.
Proof. unfold sum. induction 1; cbn in *; lia. Qed.
Lemma aggregate_of_unique ie op ns ns' v v' : Permutation ns ns' -> aggregate_of bits ie op ns v -> aggregate_of bits ie op ns' v' -> v = v'.
Proof.
  intros P. destruct op; cbn.
  - intros -> ->. now rewrite (sum_perm _ _ P).
  - intros [Hi Hl] [Hi' Hl']. apply N.le_antisymm; [apply Hl, (Permutation_in _ (Permutation_sym P)), Hi'|apply Hl', (Permutation_in _ P), Hi].
  - intros [Hi Hl] [Hi' Hl']. apply N.le_antisymm; [apply Hl', (Permutation_in _ P), Hi|apply Hl, (Permutation_in _ (Permutation_sym P)), Hi'].
  - intros H H'. apply N.bits_inj. intros i. apply eq_true_iff_eq. rewrite H, H'.
    split; intros (n & Hn & Ht); exists n; (split; [|exact Ht]); [now apply (Permutation_in _ P)|now apply (Permutation_in _ (Permutation_sym P))].
Qed.
Lemma describes_unique g g' r r' : Permutation g g' -> describes bits sel g r -> describes bits sel g' r' -> same_record r r'.
Proof.
  intros P [A1 A2 A3 A4 _ A6 A7 A8 A9 A10 A11] [B1 B2 B3 B4 _ B6 B7 B8 B9 B10 B11].
  assert (Hset : forall (f : obs -> N) p, (exists o, In o g /\ f o = p) <-> (exists o, In o g' /\ f o = p)).
  { intros f p. split; intros (o & Ho & E); exists o; (split; [|exact E]); [now apply (Permutation_in _ P)|now apply (Permutation_in _ (Permutation_sym P))]. }
  constructor.
  - now rewrite A1, B1, (Permutation_length P).
  - intros p. now rewrite A2, B2.
  - intros p. now rewrite A3, B3.
  - intros p. now rewrite A4, B4.
  - exact (least_unique _ _ _ _ _ P A6 B6).
  - exact (greatest_unique _ _ _ _ _ P A7 B7).
  - exact (least_unique _ _ _ _ _ P A8 B8).
  - exact (greatest_unique _ _ _ _ _ P A9 B9).
  - exact (greatest_unique _ _ _ _ _ P A10 B10).
  - revert A11 B11. generalize (r_agg r), (r_agg r'). clear - P. intros l l' H. revert l'. induction H as [|s x sl l Hx _ IH]; intros l' H'; inversion H' as [|? y ? l0 Hy H0]; subst; [reflexivity|].
    f_equal; [|now apply IH]. destruct x as [f|], y as [f'|].
    + destruct Hx as (E & _ & v & Ev & Hv), Hy as (E' & _ & v' & Ev' & Hv'). rewrite (aggregate_of_unique _ _ _ _ _ _ (numbers_perm _ _ _ P) Hv Hv') in Ev.
      destruct f, f'; cbn in *; congruence.
    + exfalso. destruct Hx as (_ & Hne & _). apply Hne. unfold numbers.
      assert (Hy' : forall o, In o g -> occurrence (o_fields o) (fst s) = None) by (intros o Ho; apply Hy, (Permutation_in _ P), Ho).
      clear - Hy'. induction g as [|o g IH]; [reflexivity|]. cbn. rewrite (Hy' o) by now left. apply IH. intros. apply Hy'. now right.
    + exfalso. destruct Hy as (_ & Hne & _). apply Hne. unfold numbers.
      assert (Hy' : forall o, In o g' -> occurrence (o_fields o) (fst s) = None) by (intros o Ho; apply Hx, (Permutation_in _ (Permutation_sym P)), Ho).
      clear - Hy'. induction g' as [|o g0 IH]; [reflexivity|]. cbn. rewrite (Hy' o) by now left. apply IH. intros. apply Hy'. now right.
    + reflexivity.
Qed.
Lemma filter_perm {A} (f : A -> bool) l l' : Permutation l l' -> Permutation (filter f l) (filter f l').
Proof.
  induction 1 as [|x l l' _ IH|x y l|l l' l'' _ IH1 _ IH2]; cbn; [constructor|destruct (f x); auto| |etransitivity; eauto].
  destruct (f x), (f y); auto. apply perm_swap.
Qed.
Lemma aggregate_order ins ins' c c' : numeric bits sel (observations ins) -> Permutation (observations ins) (observations ins') ->
  aggregate bits keys sel ins = Some c -> aggregate bits keys sel ins' = Some c' -> forall k,
  match mget ckey_eqb k c, mget ckey_eqb k c' with
  | None, None => True
  | Some r, Some r' => same_record r r'
  | _, _ => False
  end.
Proof.
  intros Hn P Ha Ha' k.
  assert (Hn' : numeric bits sel (observations ins')).
  { intros o r op f Ho. apply Hn. now apply (Permutation_in _ (Permutation_sym P)). }
  destruct (aggregate_good ins Hn) as (c1 & E & _ & G). rewrite Ha in E. injection E as <-.
  destruct (aggregate_good ins' Hn') as (c2 & E & _ & G'). rewrite Ha' in E. injection E as <-.
  specialize (G k). specialize (G' k). assert (Pg : Permutation (group keys k (observations ins)) (group keys k (observations ins'))) by now apply filter_perm.
  destruct (mget ckey_eqb k c) as [r|], (mget ckey_eqb k c') as [r'|]; auto.
  - destruct G as [_ D], G' as [_ D']. now apply (describes_unique _ _ _ _ Pg).
  - destruct G as [Hne _]. apply Hne. rewrite G' in Pg. now apply Permutation_sym, Permutation_nil in Pg.
  - destruct G' as [Hne _]. apply Hne. rewrite G in Pg. now apply Permutation_nil in Pg.
Qed.
End P.
Lemma group_in keys k obss o : In o (group keys k obss) <-> in_group keys k obss o.
Proof. unfold group, in_group. rewrite filter_In. destruct (ckey_eqb_spec (key_of keys o) k); intuition congruence. Qed.
