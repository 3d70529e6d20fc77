From Verif Require Import Base MapLib EnModel EnSpec EnProofs InModel InSpec.
From Coq Require Import Permutation.

(* ---- elements of a record ---- *)
Lemma has_ie_present ie fs : has_ie ie fs = true <-> present ie fs.
Proof.
  unfold has_ie, present. rewrite existsb_exists. split.
  - intros ([i v] & Hi & E). apply N.eqb_eq in E. cbn in E. subst. eauto.
  - intros (v & Hi). exists (ie, v). split; [exact Hi|apply N.eqb_refl].
Qed.
Lemma present_app ie a b : present ie (a ++ b) <-> present ie a \/ present ie b.
Proof. unfold present. setoid_rewrite in_app_iff. firstorder. Qed.
Lemma rec_has_present ie s f : rec_has ie (s, f) = true <-> present ie (s ++ f).
Proof. unfold rec_has. cbn [fst snd]. rewrite orb_true_iff, !has_ie_present, present_app. tauto. Qed.
Lemma get_ie_first ie fs v : get_ie ie fs = Some v <-> first_value ie fs v.
Proof.
  unfold get_ie. induction fs as [|[i x] fs IH]; cbn [find].
  - split; [discriminate|inversion 1].
  - unfold ie_of; cbn [fst]. destruct (N.eqb_spec i ie) as [->|Hn].
    + split; [intros [= <-]; constructor|]. inversion 1; subst; [reflexivity|]. cbn in *. congruence.
    + rewrite IH. split; [intros H; now constructor|]. inversion 1; subst; [congruence|assumption].
Qed.
Lemma get_ie_none ie fs : get_ie ie fs = None <-> ~ present ie fs.
Proof.
  rewrite <- has_ie_present. unfold get_ie, has_ie. destruct (find _ fs) as [f|] eqn:E.
  - split; [discriminate|]. intros H. destruct H. apply find_some in E. apply existsb_exists. eauto.
  - split; [|reflexivity]. intros _ H. apply existsb_exists in H as (f & Hi & Hf). pose proof (find_none _ _ E f Hi). congruence.
Qed.
Lemma first_present ie fs v : first_value ie fs v -> present ie fs.
Proof. induction 1 as [v fs|f fs v Hn H [x Hx]]; [exists v; now left|exists x; now right]. Qed.
Lemma rec_get_identifier ie s f v : rec_get ie (s, f) = Some v <-> identifier ie s f v.
Proof.
  unfold rec_get, identifier. cbn [fst snd]. destruct (get_ie ie s) as [x|] eqn:E.
  - apply get_ie_first in E as Hx. split.
    + intros [= <-]. auto.
    + intros [H|[Hn _]]; [apply get_ie_first in H; congruence|]. destruct Hn. eapply first_present; eauto.
  - apply get_ie_none in E as Hn. rewrite get_ie_first. split; [auto|]. intros [H|[_ H]]; [|exact H]. destruct Hn. eapply first_present; eauto.
Qed.
Lemma rec_get_none ie s f : rec_get ie (s, f) = None <-> ~ present ie (s ++ f).
Proof.
  unfold rec_get; cbn [fst snd]. rewrite present_app. destruct (get_ie ie s) as [x|] eqn:E.
  - apply get_ie_first, first_present in E. split; [discriminate|tauto].
  - apply get_ie_none in E. rewrite get_ie_none. tauto.
Qed.
Lemma opt_field_iff from to fs l : opt_field from to fs l <-> l = match get_ie from fs with Some v => [(to, v)] | None => [] end.
Proof.
  unfold opt_field. destruct (get_ie from fs) as [v|] eqn:E.
  - apply get_ie_first in E as H. split; [|eauto]. intros [(v' & H' & ->)|[Hn _]].
    + apply get_ie_first in H'. congruence.
    + destruct Hn. eapply first_present; eauto.
  - apply get_ie_none in E as H. split; [|auto]. intros [(v' & H' & _)|[_ ->]]; [|reflexivity]. destruct H. eapply first_present; eauto.
Qed.
Lemma not_among_iff ies f : not_among ies f = true <-> ~ In (fst f) ies.
Proof. unfold not_among. rewrite negb_true_iff, <- not_true_iff_false, existsb_ies. reflexivity. Qed.
Lemma without_iff ies fs fs' : without ies fs fs' <-> fs' = filter (not_among ies) fs.
Proof.
  split.
  - intros (keep & Hk & ->). apply filter_ext. intros f. pose proof (not_among_iff ies f) as H. rewrite <- Hk in H.
    destruct (keep f), (not_among ies f); intuition congruence.
  - intros ->. exists (not_among ies). split; [apply not_among_iff|reflexivity].
Qed.
Lemma about_sampling_iff s f : is_sampling (s, f) = true <-> about_sampling (s ++ f).
Proof.
  unfold is_sampling, about_sampling. rewrite !orb_true_iff, !andb_true_iff, !rec_has_present. unfold IE_samplingInterval, IE_samplerRandomInterval, IE_samplingPacketInterval, IE_samplingPacketSpace, IE_samplingTimeInterval, IE_samplingTimeSpace, IE_samplingSize, IE_samplingPopulation, IE_samplingProbability. tauto.
Qed.
Lemma about_interface_iff s f : is_interface (s, f) = true <-> about interface_in (s ++ f).
Proof. unfold is_interface, about. rewrite andb_true_iff, !orb_true_iff, !rec_has_present. reflexivity. Qed.
Lemma about_vrf_iff s f : is_vrf (s, f) = true <-> about vrf_in (s ++ f).
Proof. unfold is_vrf, about. rewrite andb_true_iff, !orb_true_iff, !rec_has_present. reflexivity. Qed.

Lemma filter_perm {A} (p : A -> bool) l l' : Permutation l l' -> Permutation (filter p l) (filter p l').
Proof.
  induction 1 as [|x l l' H IH|x y l|l l' l'' H1 IH1 H2 IH2]; cbn; [constructor| | |now transitivity (filter p l')].
  - destruct (p x); [now constructor|exact IH].
  - destruct (p x), (p y); try reflexivity. apply perm_swap.
Qed.

Section Order.
Variable traverse : list (fref * field) -> list (fref * field).
Hypothesis Ht : any_order traverse.
Lemma values_perm fs : Permutation (values traverse fs) fs.
Proof.
  unfold values. rewrite (Permutation_map snd (Ht (index_fields fs))). unfold index_fields. now rewrite index_from_snd.
Qed.
Lemma values_nonempty fs : fs <> [] -> is_nil (values traverse fs) = false.
Proof.
  intros H. destruct (values traverse fs) as [|x l] eqn:E; [|reflexivity]. destruct H. apply Permutation_nil. rewrite <- E. apply values_perm.
Qed.

(* ---- what a normalized record becomes ---- *)
Lemma upsert_op_for ip dom w c i cond info : Permutation c cond -> Permutation i info -> op_for ip dom w cond info (upsert_from traverse ip dom w (c, i)).
Proof.
  intros H1 H2. exists (values traverse c), (values traverse i). cbn [fst snd]. split; [|split; [|reflexivity]].
  - now rewrite values_perm.
  - now rewrite values_perm.
Qed.

(* the identifiers and pieces of information of a mapping, both directions *)
Section Mapping.
Variables ie_in ie_out ie_a ie_b in_a in_b out_a out_b : N.
Notation d_in := (mkDir ie_in ie_out ie_a in_a ie_b in_b).
Notation d_out := (mkDir ie_out ie_in ie_a out_a ie_b out_b).
Notation mapping := (normalize_mapping traverse ie_in ie_out ie_a ie_b in_a in_b out_a out_b).
Definition told_by (d : direction) (scope fs : list field) (cond info : list field) : Prop :=
  exists v cond0 l1 l2, identifier (own d) scope fs v /\ (forall v', identifier (other d) scope fs v' -> v' = v) /\
    opt_field (info1 d) (to1 d) fs l1 /\ opt_field (info2 d) (to2 d) fs l2 /\ l1 ++ l2 <> [] /\
    without [own d; other d; 210; 144] scope cond0 /\ cond = (own d, v) :: cond0 /\ info = l1 ++ l2.
Definition bad (d : direction) (scope fs : list field) : Prop :=
  (exists v v', identifier (own d) scope fs v /\ identifier (other d) scope fs v' /\ v <> v') \/
  (~ present (info1 d) fs /\ ~ present (info2 d) fs).
Lemma not_among_swap x y l : not_among (x :: y :: l) = not_among (x :: y :: l) /\ forall f, not_among (y :: x :: l) f = not_among (x :: y :: l) f.
Proof. split; [reflexivity|]. intros f. unfold not_among. cbn [existsb]. now destruct (ie_of f =? x), (ie_of f =? y). Qed.
Lemma create_In id add a b ta tb c i :
  In (c, i) (create_record id add a b ta tb) <->
  c = id :: add /\ i = match a with Some v => [(ta, v)] | None => [] end ++ match b with Some v => [(tb, v)] | None => [] end /\ i <> [].
Proof.
  unfold create_record. destruct a as [a|], b as [b|]; cbn; (split; [intros [H|H]; [injection H as <- <-; repeat split; discriminate|contradiction]|intros (-> & -> & H); try (now left)]) || (split; [tauto|intros (_ & -> & H); now apply H]).
Qed.
Lemma mapping_ok scope fs : present ie_in (scope ++ fs) \/ present ie_out (scope ++ fs) ->
  match mapping (scope, fs) with
  | None => bad d_in scope fs \/ bad d_out scope fs
  | Some rs => ~ bad d_in scope fs /\ ~ bad d_out scope fs /\
    (forall c i, In (c, i) rs -> exists d cond0, (d = d_in \/ d = d_out) /\ told_by d scope fs cond0 i /\ Permutation c cond0) /\
    (forall d cond0 i, d = d_in \/ d = d_out -> told_by d scope fs cond0 i -> exists c, In (c, i) rs /\ Permutation c cond0)
  end.
Proof.
  intros Hp. unfold normalize_mapping. cbn [fst snd].
  set (add := filter _ (values traverse scope)).
  assert (Hadd : forall x y, (x = ie_in /\ y = ie_out) \/ (x = ie_out /\ y = ie_in) -> forall c0, without [x; y; 210; 144] scope c0 -> Permutation add c0).
  { intros x y Hxy c0 Hc. apply without_iff in Hc. subst c0. unfold add, IE_paddingOctets, IE_exportingProcessId.
    destruct Hxy as [[-> ->]|[-> ->]].
    - apply filter_perm, values_perm.
    - rewrite (filter_ext (not_among [ie_out; ie_in; 210; 144]) (not_among [ie_in; ie_out; 210; 144])) by apply not_among_swap. apply filter_perm, values_perm. }
  assert (Hpick : forall x y, (x = ie_in /\ y = ie_out) \/ (x = ie_out /\ y = ie_in) -> exists c0, without [x; y; 210; 144] scope c0 /\ Permutation add c0).
  { intros x y Hxy. exists (filter (not_among [x; y; 210; 144]) scope). assert (Hw : without [x; y; 210; 144] scope (filter (not_among [x; y; 210; 144]) scope)) by now apply without_iff. split; [exact Hw|]. eapply Hadd; eauto. }
  set (a := get_ie ie_a fs). set (b := get_ie ie_b fs).
  assert (Hab : (~ present ie_a fs /\ ~ present ie_b fs) <-> (a = None /\ b = None)) by (unfold a, b; rewrite !get_ie_none; reflexivity).
  assert (Hof : forall to l, opt_field ie_a to fs l <-> l = match a with Some v => [(to, v)] | None => [] end) by (intros; apply opt_field_iff).
  assert (Hog : forall to l, opt_field ie_b to fs l <-> l = match b with Some v => [(to, v)] | None => [] end) by (intros; apply opt_field_iff).
  destruct (rec_get ie_in (scope, fs)) as [vi|] eqn:Ei; destruct (rec_get ie_out (scope, fs)) as [vo|] eqn:Eo.
  4:{ apply rec_get_none in Ei, Eo. tauto. }
  all: assert (Hi : forall v, identifier ie_in scope fs v <-> rec_get ie_in (scope, fs) = Some v) by (intros; now rewrite rec_get_identifier);
       assert (Ho : forall v, identifier ie_out scope fs v <-> rec_get ie_out (scope, fs) = Some v) by (intros; now rewrite rec_get_identifier);
       rewrite Ei in Hi; rewrite Eo in Ho.
  - destruct (N.eqb_spec vi vo) as [<-|Hne].
    2:{ left. left. exists vi, vo. cbn. rewrite Hi, Ho. auto. }
    assert (Hnb : ~ (a = None /\ b = None) -> ~ bad d_in scope fs /\ ~ bad d_out scope fs).
    { intros Hn. split; intros [(v & v' & H1 & H2 & H3)|H]; cbn in *; try tauto; rewrite Hi in *; rewrite Ho in *; congruence. }
    assert (Hc : forall c i, In (c, i) (create_record (ie_in, vi) add a b in_a in_b ++ create_record (ie_out, vi) add a b out_a out_b) -> exists d cond0, (d = d_in \/ d = d_out) /\ told_by d scope fs cond0 i /\ Permutation c cond0).
    { intros c i H. apply in_app_or in H as [H|H]; apply create_In in H as (-> & -> & Hn).
      - destruct (Hpick ie_in ie_out ltac:(auto)) as (c0 & Hw & Hpm). exists d_in, ((ie_in, vi) :: c0). split; [auto|]. split; [|now constructor].
        exists vi, c0. do 2 eexists. cbn [own other info1 to1 info2 to2]. rewrite Hi, Hof, Hog. repeat split; eauto. intros v'. rewrite Ho. congruence.
      - destruct (Hpick ie_out ie_in ltac:(auto)) as (c0 & Hw & Hpm). exists d_out, ((ie_out, vi) :: c0). split; [auto|]. split; [|now constructor].
        exists vi, c0. do 2 eexists. cbn [own other info1 to1 info2 to2]. rewrite Ho, Hof, Hog. repeat split; eauto. intros v'. rewrite Hi. congruence. }
    assert (Hd : forall d cond0 i, d = d_in \/ d = d_out -> told_by d scope fs cond0 i -> exists c, In (c, i) (create_record (ie_in, vi) add a b in_a in_b ++ create_record (ie_out, vi) add a b out_a out_b) /\ Permutation c cond0).
    { intros d cond0 i [-> | ->] (v & c0 & l1 & l2 & H1 & H2 & H3 & H4 & H5 & H6 & -> & ->); cbn [own other info1 to1 info2 to2] in *.
      - apply Hi in H1. injection H1 as <-. apply Hof in H3. apply Hog in H4. exists ((ie_in, vi) :: add). split; [|constructor; eapply Hadd; [|exact H6]; auto].
        apply in_or_app. left. apply create_In. subst. auto.
      - apply Ho in H1. injection H1 as <-. apply Hof in H3. apply Hog in H4. exists ((ie_out, vi) :: add). split; [|constructor; eapply Hadd; [|exact H6]; auto].
        apply in_or_app. right. apply create_In. subst. auto. }
    destruct (create_record (ie_in, vi) add a b in_a in_b ++ create_record (ie_out, vi) add a b out_a out_b) as [|x rs] eqn:E.
    + left. right. cbn. rewrite Hab. apply app_eq_nil in E as [E _]. unfold create_record in E. destruct a, b; try discriminate. auto.
    + split; [|split; [|split]]; auto; apply Hnb; intros [-> ->]; discriminate.
  - assert (Hnb : ~ (a = None /\ b = None) -> ~ bad d_in scope fs /\ ~ bad d_out scope fs).
    { intros Hn. split; intros [(v & v' & H1 & H2 & H3)|H]; cbn in *; try tauto; rewrite Hi in *; rewrite Ho in *; congruence. }
    assert (Hc : forall c i, In (c, i) (create_record (ie_in, vi) add a b in_a in_b) -> exists d cond0, (d = d_in \/ d = d_out) /\ told_by d scope fs cond0 i /\ Permutation c cond0).
    { intros c i H. apply create_In in H as (-> & -> & Hn).
      destruct (Hpick ie_in ie_out ltac:(auto)) as (c0 & Hw & Hpm). exists d_in, ((ie_in, vi) :: c0). split; [auto|]. split; [|now constructor].
      exists vi, c0. do 2 eexists. cbn [own other info1 to1 info2 to2]. rewrite Hi, Hof, Hog. repeat split; eauto. intros v'. rewrite Ho. congruence. }
    assert (Hd : forall d cond0 i, d = d_in \/ d = d_out -> told_by d scope fs cond0 i -> exists c, In (c, i) (create_record (ie_in, vi) add a b in_a in_b) /\ Permutation c cond0).
    { intros d cond0 i [-> | ->] (v & c0 & l1 & l2 & H1 & H2 & H3 & H4 & H5 & H6 & -> & ->); cbn [own other info1 to1 info2 to2] in *.
      - apply Hi in H1. injection H1 as <-. apply Hof in H3. apply Hog in H4. exists ((ie_in, vi) :: add). split; [|constructor; eapply Hadd; [|exact H6]; auto].
        apply create_In. subst. auto.
      - apply Ho in H1. discriminate. }
    destruct (create_record (ie_in, vi) add a b in_a in_b) as [|x rs] eqn:E.
    + left. right. cbn. rewrite Hab. unfold create_record in E. destruct a, b; try discriminate. auto.
    + split; [|split; [|split]]; auto; apply Hnb; intros [-> ->]; discriminate.
  - assert (Hnb : ~ (a = None /\ b = None) -> ~ bad d_in scope fs /\ ~ bad d_out scope fs).
    { intros Hn. split; intros [(v & v' & H1 & H2 & H3)|H]; cbn in *; try tauto; rewrite Hi in *; rewrite Ho in *; congruence. }
    assert (Hc : forall c i, In (c, i) (create_record (ie_out, vo) add a b out_a out_b) -> exists d cond0, (d = d_in \/ d = d_out) /\ told_by d scope fs cond0 i /\ Permutation c cond0).
    { intros c i H. apply create_In in H as (-> & -> & Hn).
      destruct (Hpick ie_out ie_in ltac:(auto)) as (c0 & Hw & Hpm). exists d_out, ((ie_out, vo) :: c0). split; [auto|]. split; [|now constructor].
      exists vo, c0. do 2 eexists. cbn [own other info1 to1 info2 to2]. rewrite Ho, Hof, Hog. repeat split; eauto. intros v'. rewrite Hi. congruence. }
    assert (Hd : forall d cond0 i, d = d_in \/ d = d_out -> told_by d scope fs cond0 i -> exists c, In (c, i) (create_record (ie_out, vo) add a b out_a out_b) /\ Permutation c cond0).
    { intros d cond0 i [-> | ->] (v & c0 & l1 & l2 & H1 & H2 & H3 & H4 & H5 & H6 & -> & ->); cbn [own other info1 to1 info2 to2] in *.
      - apply Hi in H1. discriminate.
      - apply Ho in H1. injection H1 as <-. apply Hof in H3. apply Hog in H4. exists ((ie_out, vo) :: add). split; [|constructor; eapply Hadd; [|exact H6]; auto].
        apply create_In. subst. auto. }
    destruct (create_record (ie_out, vo) add a b out_a out_b) as [|x rs] eqn:E.
    + left. right. cbn. rewrite Hab. unfold create_record in E. destruct a, b; try discriminate. auto.
    + split; [|split; [|split]]; auto; apply Hnb; intros [-> ->]; discriminate.
Qed.
End Mapping.

Lemma about_swap d all : about (mkDir (other d) (own d) (info1 d) (to1 d) (info2 d) (to2 d)) all <-> about d all.
Proof. unfold about; cbn. tauto. Qed.
Lemma about_out all : about interface_out all <-> about interface_in all.
Proof. unfold about; cbn. tauto. Qed.
Lemma about_vout all : about vrf_out all <-> about vrf_in all.
Proof. unfold about; cbn. tauto. Qed.
Lemma tells_told_by scope fs cond info : tells scope fs cond info <->
  ((about_sampling (scope ++ fs) \/ (~ about interface_in (scope ++ fs) /\ ~ about vrf_in (scope ++ fs))) /\ without [210; 144] scope cond /\ without [210] fs info /\ info <> []) \/
  (exists d, names_for d (scope ++ fs) /\ told_by d scope fs cond info).
Proof.
  split.
  - intros [c i H1 H2 H3 H4|d v c l1 l2 H1 H2 H3 H4 H5 H6 H7]; [auto|]. right. exists d. split; [exact H1|]. exists v, c, l1, l2. auto 10.
  - intros [(H1 & H2 & H3 & H4)|(d & H & v & c & l1 & l2 & H1 & H2 & H3 & H4 & H5 & H6 & -> & ->)]; [now constructor|]. now apply T_names.
Qed.
Lemma validate_upsert ip dom w c i : i <> [] -> validate (upsert_from traverse ip dom w (c, i)) = true.
Proof. intros H. unfold upsert_from, validate. cbn [fst snd]. now rewrite values_nonempty. Qed.
Definition handled (ip dom w : N) (scope fs : list field) (x : option (list op)) : Prop :=
  match x with
  | None => refused scope fs
  | Some ops => ~ refused scope fs /\
    (forall o, In o ops -> exists cond info, tells scope fs cond info /\ op_for ip dom w cond info o) /\
    (forall cond info, tells scope fs cond info -> exists o, In o ops /\ op_for ip dom w cond info o)
  end.
Lemma handled_mapping ip dom w scope fs ie_in ie_out ie_a ie_b in_a in_b out_a out_b :
  (present ie_in (scope ++ fs) \/ present ie_out (scope ++ fs)) ->
  (forall d, names_for d (scope ++ fs) <-> d = mkDir ie_in ie_out ie_a in_a ie_b in_b \/ d = mkDir ie_out ie_in ie_a out_a ie_b out_b) ->
  ~ about_sampling (scope ++ fs) -> about interface_in (scope ++ fs) \/ about vrf_in (scope ++ fs) ->
  handled ip dom w scope fs
    match normalize_mapping traverse ie_in ie_out ie_a ie_b in_a in_b out_a out_b (scope, fs) with
    | None => None
    | Some rs => Some (filter validate (map (upsert_from traverse ip dom w) rs))
    end.
Proof.
  intros Hp Hd Hs Hab. pose proof (mapping_ok ie_in ie_out ie_a ie_b in_a in_b out_a out_b scope fs Hp) as H.
  destruct (normalize_mapping traverse ie_in ie_out ie_a ie_b in_a in_b out_a out_b (scope, fs)) as [rs|]; cbn [handled].
  - destruct H as (H1 & H2 & H3 & H4). split; [|split].
    + intros (d & Hn & Hb). apply Hd in Hn as [-> | ->]; [now apply H1|now apply H2].
    + intros o Ho. apply filter_In in Ho as [Ho _]. apply in_map_iff in Ho as ([c i] & <- & Hi).
      destruct (H3 c i Hi) as (d & c0 & Hdd & Ht0 & Hpm). exists c0, i. split; [|now apply upsert_op_for].
      apply tells_told_by. right. exists d. split; [now apply Hd|exact Ht0].
    + intros c0 i Htell. apply tells_told_by in Htell as [([Hx|[Hx Hy]] & _)|(d & Hdn & Ht0)]; [tauto|tauto|].
      destruct (H4 d c0 i (proj1 (Hd d) Hdn) Ht0) as (c & Hi & Hpm). exists (upsert_from traverse ip dom w (c, i)). split; [|now apply upsert_op_for].
      apply filter_In. split; [now apply in_map|]. apply validate_upsert. destruct Ht0 as (v & c1 & l1 & l2 & _ & _ & _ & _ & Hn & _ & _ & ->). exact Hn.
  - destruct H as [H|H]; eexists; (split; [|exact H]); apply Hd; auto.
Qed.
Lemma handled_plain ip dom w scope fs :
  about_sampling (scope ++ fs) \/ (~ about interface_in (scope ++ fs) /\ ~ about vrf_in (scope ++ fs)) ->
  handled ip dom w scope fs (Some (filter validate (map (upsert_from traverse ip dom w) [normalize_plain traverse (scope, fs)]))).
Proof.
  intros H. assert (Hn : forall d, ~ names_for d (scope ++ fs)).
  { intros d [Hs [[[-> | ->] Ha]|[[-> | ->] [Ha Hb]]]]; rewrite ?about_out, ?about_vout in Ha; tauto. }
  cbn [handled map]. split; [|split].
  - intros (d & Hd & _). now apply (Hn d).
  - intros o Ho. apply filter_In in Ho as [[<-|[]] Hv]. unfold normalize_plain in *. cbn [fst snd] in *.
    exists (filter (not_among [210; 144]) scope), (filter (not_among [210]) fs). split.
    + constructor; [exact H|now apply without_iff|now apply without_iff|]. intros E.
      unfold upsert_from, validate in Hv. cbn [fst snd] in Hv. apply negb_true_iff in Hv. apply is_nil_neq in Hv. apply Hv.
      apply Permutation_nil. rewrite <- E, values_perm. apply filter_perm. symmetry. apply values_perm.
    + apply upsert_op_for; apply filter_perm, values_perm.
  - intros cond info Htell. apply tells_told_by in Htell as [(_ & Hc & Hi & Hne)|(d & Hd & _)]; [|now apply Hn in Hd].
    apply without_iff in Hc, Hi. exists (upsert_from traverse ip dom w (normalize_plain traverse (scope, fs))).
    assert (Hop : op_for ip dom w cond info (upsert_from traverse ip dom w (normalize_plain traverse (scope, fs)))).
    { unfold normalize_plain. cbn [fst snd]. apply upsert_op_for; subst; apply filter_perm, values_perm. }
    split; [|exact Hop]. apply filter_In. split; [now left|]. destruct Hop as (c' & i' & _ & Hpi & E). rewrite E. cbn [validate].
    destruct i' as [|x i']; [|reflexivity]. destruct Hne. now apply Permutation_nil.
Qed.
Lemma handle_ok ip dom w scope fs : handled ip dom w scope fs (handle_option_record traverse ip dom w (scope, fs)).
Proof.
  unfold handle_option_record, normalize, classify.
  destruct (is_sampling (scope, fs)) eqn:Es.
  { apply about_sampling_iff in Es. apply handled_plain. auto. }
  assert (Hs : ~ about_sampling (scope ++ fs)) by (rewrite <- about_sampling_iff; congruence).
  destruct (is_interface (scope, fs)) eqn:Ei.
  { apply about_interface_iff in Ei. apply handled_mapping; [apply Ei| |exact Hs|auto].
    intros d. unfold names_for. fold interface_in. fold interface_out. split.
    - intros [_ [[Hd _]|[_ [_ Hn]]]]; [exact Hd|tauto].
    - intros Hd. split; [exact Hs|]. left. split; [exact Hd|]. destruct Hd as [-> | ->]; [exact Ei|now apply about_out]. }
  assert (Hni : ~ about interface_in (scope ++ fs)) by (rewrite <- about_interface_iff; congruence).
  destruct (is_vrf (scope, fs)) eqn:Ev.
  { apply about_vrf_iff in Ev. apply handled_mapping; [apply Ev| |exact Hs|auto].
    intros d. unfold names_for. fold vrf_in. fold vrf_out. split.
    - intros [_ [[[-> | ->] Ha]|[Hd _]]]; [tauto|apply about_out in Ha; tauto|exact Hd].
    - intros Hd. split; [exact Hs|]. right. split; [exact Hd|]. split; [|exact Hni]. destruct Hd as [-> | ->]; [exact Ev|now apply about_vout]. }
  assert (Hnv : ~ about vrf_in (scope ++ fs)) by (rewrite <- about_vrf_iff; congruence).
  apply handled_plain. auto.
Qed.

(* ---- records as they come ---- *)
Lemma convert_ok s : match convert_scope s with
  | Some sc => forall scope, (exists parts, scope = concat parts /\
    Forall2 (fun x part => match x with
                           | NSystem => part = []
                           | NInterface i => part = [(10, i); (14, i)]
                           | NLineCard n => part = [(141, n)]
                           | NCache | NTemplate | NUnknown => False
                           end) s parts) <-> scope = sc
  | None => forall parts, ~ Forall2 (fun x part => match x with
                           | NSystem => part = []
                           | NInterface i => part = [(10, i); (14, i)]
                           | NLineCard n => part = [(141, n)]
                           | NCache | NTemplate | NUnknown => False
                           end) s parts
  end.
Proof.
  induction s as [|x s IH]; cbn [convert_scope].
  - intros scope. split.
    + intros (parts & -> & H). inversion H. reflexivity.
    + intros ->. exists []. split; [reflexivity|constructor].
  - destruct (convert_scope s) as [sc|].
    + destruct x as [|i|n| | |]; cbn [app]; try (intros parts H; inversion H; subst; contradiction).
      all: intros scope; split;
        [intros (parts & -> & H); inversion H as [|? p ? ps Hx Hf]; subst; cbn [concat app]; repeat f_equal; apply IH; eauto
        |intros ->; destruct (proj2 (IH sc) eq_refl) as (ps & -> & Hf); eexists (_ :: ps); split; [|constructor; [reflexivity|exact Hf]]; reflexivity].
    + destruct x; intros parts H; inversion H; subst; try contradiction; eapply IH; eauto.
Qed.
Lemma record_ops_ok ip dom w r scope fs : orecord_is r scope fs ->
  (refused scope fs -> record_ops traverse ip dom w r = []) /\
  (forall o, In o (record_ops traverse ip dom w r) -> exists cond info, tells scope fs cond info /\ op_for ip dom w cond info o) /\
  (~ refused scope fs -> forall cond info, tells scope fs cond info -> exists o, In o (record_ops traverse ip dom w r) /\ op_for ip dom w cond info o).
Proof.
  intros H. assert (E : record_ops traverse ip dom w r = match handle_option_record traverse ip dom w (scope, fs) with Some ops => ops | None => [] end).
  { destruct r as [s f|s f]; cbn [orecord_is record_ops] in *.
    - destruct H as (Hn & -> & ->). destruct s; [congruence|reflexivity].
    - destruct H as (Hn & -> & Hp). pose proof (convert_ok s) as Hc. destruct s; [congruence|]. cbn [is_nil].
      destruct (convert_scope (n :: s)) as [sc|]; [apply Hc in Hp as ->; reflexivity|]. destruct Hp as (parts & _ & Hp). now apply Hc in Hp. }
  rewrite E. pose proof (handle_ok ip dom w scope fs) as Hh. destruct (handle_option_record traverse ip dom w (scope, fs)) as [ops|]; cbn [handled] in Hh.
  - destruct Hh as (H1 & H2 & H3). split; [tauto|]. split; [exact H2|intros _; exact H3].
  - split; [reflexivity|]. split; [intros o []|tauto].
Qed.
Lemma record_ops_none ip dom w r : (forall scope fs, ~ orecord_is r scope fs) -> record_ops traverse ip dom w r = [].
Proof.
  intros H. destruct r as [s f|s f]; cbn [orecord_is record_ops] in *.
  - destruct s as [|x s]; [reflexivity|]. destruct (H (x :: s) f). repeat split. discriminate.
  - destruct s as [|x s]; [reflexivity|]. cbn [is_nil]. pose proof (convert_ok (x :: s)) as Hc. destruct (convert_scope (x :: s)) as [sc|]; [|reflexivity].
    destruct (H sc f). repeat split; [discriminate|]. now apply Hc.
Qed.
End Order.
