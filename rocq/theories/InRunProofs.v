From Verif Require Import Base MapLib EnModel EnSpec EnProofs EnProps InModel InSpec InProofs.
From Coq Require Import Permutation.

(* ---- one reference of a record with distinct elements ---- *)
Lemma distinct_filter ie v l : distinct l -> In (ie, v) l -> filter (fun f => ie_of f =? ie) l = [(ie, v)].
Proof.
  unfold distinct. induction l as [|[i x] l IH]; intros Hd Hi; [destruct Hi|]. cbn in Hd. inversion Hd as [|? ? Hn Hd']; subst. cbn [filter ie_of fst].
  destruct Hi as [[= -> ->]|Hi].
  - unfold ie_of; cbn [fst]. rewrite N.eqb_refl. f_equal. rewrite (filter_ext_in _ (fun _ => false)).
    + clear. induction l as [|y l IHl]; [reflexivity|exact IHl].
    + intros [j y] Hj. cbn. apply N.eqb_neq. intros ->. apply Hn. apply in_map_iff. exists (ie, y). auto.
  - unfold ie_of; cbn [fst]. destruct (N.eqb_spec i ie) as [->|_]; [|now apply IH]. destruct Hn. apply in_map_iff. exists (ie, v). auto.
Qed.
Lemma occurrence_distinct ie v l : distinct l -> In (ie, v) l -> occurrence l (ie, 0) = Some (ie, v).
Proof. intros Hd Hi. unfold occurrence. cbn [fst snd]. now rewrite (distinct_filter ie v). Qed.
Lemma occurrence_In l r f : occurrence l r = Some f -> In f l /\ fst f = fst r.
Proof. unfold occurrence. intros H. apply nth_error_In in H. apply filter_In in H as [H E]. apply N.eqb_eq in E. auto. Qed.
Lemma occurrence_zero l r f : distinct l -> occurrence l r = Some f -> snd r = 0.
Proof.
  intros Hd H. destruct (occurrence_In _ _ _ H) as [Hi E]. destruct f as [ie v]. cbn in E. unfold occurrence in H. rewrite (distinct_filter (fst r) v) in H; [|exact Hd|now rewrite <- E].
  destruct (snd r) as [|q]; [reflexivity|]. exfalso. destruct (N.to_nat (N.pos q)) as [|[|k]] eqn:En; [lia| |]; discriminate.
Qed.
Lemma first_occurrence ie l v : first_value ie l v -> occurrence l (ie, 0) = Some (ie, v).
Proof.
  unfold occurrence. cbn [fst snd]. induction 1 as [v fs|f fs v Hn H IH]; cbn [filter]; unfold ie_of; cbn [fst].
  - now rewrite N.eqb_refl.
  - unfold ie_of in IH. destruct (N.eqb_spec (fst f) ie); [congruence|exact IH].
Qed.
Lemma carries_matches cond fs : distinct cond -> carries fs cond -> scope_matches cond fs.
Proof.
  intros Hd Hc [ie k] [i v] H. assert (Hk := occurrence_zero _ _ _ Hd H). cbn in Hk. subst k. apply occurrence_In in H as [Hi E]. cbn in E. subst i.
  now apply first_occurrence, Hc.
Qed.
Lemma distinct_perm l l' : Permutation l l' -> distinct l -> distinct l'.
Proof. intros H. unfold distinct. apply Permutation_NoDup. now apply Permutation_map. Qed.
Lemma carries_perm l l' fs : Permutation l l' -> carries fs l -> carries fs l'.
Proof. intros Hp Hc ie v Hi. apply Hc. eapply Permutation_in; [symmetry; exact Hp|exact Hi]. Qed.

(* ---- an element is told under one condition only ---- *)
Lemma target_dir d d' ie : d = interface_in \/ d = interface_out \/ d = vrf_in \/ d = vrf_out -> d' = interface_in \/ d' = interface_out \/ d' = vrf_in \/ d' = vrf_out ->
  ie = to1 d \/ ie = to2 d -> ie = to1 d' \/ ie = to2 d' -> d = d'.
Proof. intros [-> |[-> |[-> | ->]]] [-> |[-> |[-> | ->]]] [-> | ->] [H|H]; try reflexivity; discriminate H. Qed.
Lemma told_targets d scope fs cond info ie v : told_by d scope fs cond info -> In (ie, v) info -> ie = to1 d \/ ie = to2 d.
Proof.
  intros (v0 & c & l1 & l2 & _ & _ & H1 & H2 & _ & _ & _ & ->) Hi. apply in_app_or in Hi as [Hi|Hi].
  - destruct H1 as [(x & _ & ->)|[_ ->]]; [|destruct Hi]. destruct Hi as [[= <- _]|[]]. auto.
  - destruct H2 as [(x & _ & ->)|[_ ->]]; [|destruct Hi]. destruct Hi as [[= <- _]|[]]. auto.
Qed.
Lemma told_by_unique d scope fs cond info cond' info' : told_by d scope fs cond info -> told_by d scope fs cond' info' -> cond = cond' /\ info = info'.
Proof.
  intros (v & c & l1 & l2 & H1 & _ & H2 & H3 & _ & H4 & -> & ->) (v' & c' & l1' & l2' & H1' & _ & H2' & H3' & _ & H4' & -> & ->).
  apply rec_get_identifier in H1, H1'. apply opt_field_iff in H2, H3, H2', H3'. apply without_iff in H4, H4'. split; congruence.
Qed.
Lemma names_dirs d all : names_for d all -> d = interface_in \/ d = interface_out \/ d = vrf_in \/ d = vrf_out.
Proof. intros [_ [[H _]|[H _]]]; tauto. Qed.
Lemma names_not_plain d all : names_for d all -> ~ (about_sampling all \/ (~ about interface_in all /\ ~ about vrf_in all)).
Proof.
  intros [Hs [[[-> | ->] Ha]|[[-> | ->] [Ha Hb]]]]; rewrite ?about_out, ?about_vout in Ha; tauto.
Qed.
Lemma tells_unique scope fs cond info cond' info' ie v v' :
  tells scope fs cond info -> tells scope fs cond' info' -> In (ie, v) info -> In (ie, v') info' -> cond = cond' /\ info = info'.
Proof.
  intros H H' Hi Hi'. apply tells_told_by in H, H'.
  destruct H as [(Hp & H1 & H2 & _)|(d & Hd & H)]; destruct H' as [(Hp' & H1' & H2' & _)|(d' & Hd' & H')].
  - apply without_iff in H1, H2, H1', H2'. split; congruence.
  - now apply names_not_plain in Hd'.
  - now apply names_not_plain in Hd.
  - assert (d = d').
    { eapply target_dir; [eapply names_dirs; eauto|eapply names_dirs; eauto|eapply told_targets; eauto|eapply told_targets; eauto]. }
    subst d'. eapply told_by_unique; eauto.
Qed.

(* ---- the operations of a record ---- *)
Section Order.
Variable traverse : list (fref * field) -> list (fref * field).
Hypothesis Ht : any_order traverse.
Lemma record_upserts ip dom w r o : In o (record_ops traverse ip dom w r) -> exists scope fs, o = Upsert ip dom scope w fs.
Proof.
  assert (H : forall r0, In o (match handle_option_record traverse ip dom w r0 with Some ops => ops | None => [] end) -> exists scope fs, o = Upsert ip dom scope w fs).
  { intros r0. unfold handle_option_record. destruct (normalize traverse r0) as [rs|]; [|intros []]. intros Hi. apply filter_In in Hi as [Hi _]. apply in_map_iff in Hi as (x & <- & _). unfold upsert_from. eauto. }
  unfold record_ops. destruct r as [s f|s f]; destruct (is_nil s); try (intros []); [apply H|]. destruct (convert_scope s); [apply H|intros []].
Qed.
Lemma offers_In ip dom scope r ops x : In x (offers ip dom scope r ops) -> exists fs, In (Upsert ip dom scope (fst x) fs) ops /\ occurrence fs r = Some (snd x).
Proof.
  unfold offers. intros H. apply in_flat_map in H as (o & Ho & H). destruct o as [ip' dom' scope' w fs| |]; [|destruct H|destruct H].
  destruct (N.eqb_spec ip' ip) as [->|]; [|destruct H]. destruct (N.eqb_spec dom' dom) as [->|]; [|destruct H]. cbn [andb] in H.
  destruct (scope_eqb_spec scope' scope) as [->|]; [|destruct H]. destruct (occurrence fs r) as [f|] eqn:E; [|destruct H]. destruct H as [<-|[]]. cbn. eauto.
Qed.
Lemma In_offers ip dom scope r ops w fs f : In (Upsert ip dom scope w fs) ops -> occurrence fs r = Some f -> In (w, f) (offers ip dom scope r ops).
Proof.
  intros H E. unfold offers. apply in_flat_map. exists (Upsert ip dom scope w fs). split; [exact H|]. rewrite !N.eqb_refl. cbn [andb].
  destruct (scope_eqb_spec scope scope); [|congruence]. rewrite E. now left.
Qed.
Lemma fold_upd_const (x : weighted) l : Forall (fun y => y = x) l -> l <> [] -> forall cur, (forall w0 f0, cur = Some (w0, f0) -> w0 <= fst x) -> fold_left upd l cur = Some x.
Proof.
  intros Hl Hn. destruct l as [|y l]; [congruence|]. inversion Hl as [|? ? Hy Hl']; subst y. intros cur Hc. cbn [fold_left].
  assert (E : upd cur x = Some x).
  { unfold upd. destruct cur as [[w0 f0]|]; [|reflexivity]. specialize (Hc _ _ eq_refl). destruct (N.leb_spec w0 (fst x)); [reflexivity|lia]. }
  rewrite E. clear - Hl'. induction Hl' as [|y l -> _ IH]; [reflexivity|]. cbn [fold_left]. unfold upd at 2. destruct x as [wx fx]. cbn [fst]. rewrite N.leb_refl. exact IH.
Qed.
Lemma options_reach ops0 ip dom w r scope fs cond info ie v d rec :
  orecord_is r scope fs -> ~ refused scope fs -> tells scope fs cond info -> distinct cond -> distinct info -> In (ie, v) info ->
  applies d dom -> carries rec cond ->
  (forall d' scope' w' f', applies d d' -> scope_matches scope' rec -> stored (apply_ops ops0) ip d' scope' (ie, 0) = Some (w', f') ->
     w' < w \/ (w' <= w /\ d' = dom /\ exists info' v', In (Upsert ip dom scope' w info') (record_ops traverse ip dom w r) /\ In (ie, v') info')) ->
  let c := apply_ops (ops0 ++ record_ops traverse ip dom w r) in
  (forall w' f', best c ip d rec (ie, 0) w' f' <-> w' = w /\ f' = (ie, v)) /\
  exists l, enrichment_fields c ip d rec = Some l /\ In (ie, v) l.
Proof.
  intros Hr Hnr Htell Hdc Hdi Hi Ha Hc Hold c.
  destruct (record_ops_ok traverse Ht ip dom w r scope fs Hr) as (_ & Hops & Hcov).
  set (R := record_ops traverse ip dom w r) in *.
  assert (Hup : Forall is_upsert R) by (apply Forall_forall; intros o Ho; apply record_upserts in Ho as (? & ? & ->); exact I).
  (* every write of the element has this value *)
  assert (Hw : forall scope' info' v', In (Upsert ip dom scope' w info') R -> In (ie, v') info' ->
     Permutation scope' cond /\ Permutation info' info).
  { intros scope' info' v' Ho Hv. destruct (Hops _ Ho) as (c2 & i2 & Ht2 & c' & i' & P1 & P2 & E). injection E as -> ->.
    assert (Hv2 : In (ie, v') i2) by (eapply Permutation_in; [exact P2|exact Hv]).
    destruct (tells_unique _ _ _ _ _ _ _ _ _ Htell Ht2 Hi Hv2) as [-> ->]. auto. }
  assert (Hwv : forall scope' info' v', In (Upsert ip dom scope' w info') R -> In (ie, v') info' -> v' = v).
  { intros scope' info' v' Ho Hv. destruct (Hw _ _ _ Ho Hv) as [_ P]. assert (Hv' : In (ie, v') info) by (eapply Permutation_in; eauto).
    pose proof (occurrence_distinct _ _ _ Hdi Hv') as E1. pose proof (occurrence_distinct _ _ _ Hdi Hi) as E2. congruence. }
  assert (Hoff : forall d' scope' x, In x (offers ip d' scope' (ie, 0) R) -> d' = dom /\ x = (w, (ie, v)) /\ exists info' v', In (Upsert ip dom scope' w info') R /\ In (ie, v') info').
  { intros d' scope' x Hx. apply offers_In in Hx as (fx & Ho & Hoc). pose proof (record_upserts _ _ _ _ _ Ho) as (s' & f' & E). injection E as E1 E2 E3 E4.
    destruct x as [wx fx']. cbn [fst snd] in *. subst. apply occurrence_In in Hoc as [Hin Ee]. destruct fx' as [i' v']. cbn in Ee. subst i'.
    split; [reflexivity|]. split; [|eauto]. now rewrite (Hwv _ _ _ Ho Hin). }
  assert (Hst : forall d' scope', stored c ip d' scope' (ie, 0) = fold_left upd (offers ip d' scope' (ie, 0) R) (stored (apply_ops ops0) ip d' scope' (ie, 0))).
  { intros d' scope'. unfold c, apply_ops. rewrite fold_left_app. now apply upserts_fold. }
  assert (Hlow : forall d' scope' w' f', applies d d' -> scope_matches scope' rec -> stored c ip d' scope' (ie, 0) = Some (w', f') -> w' < w \/ (w' = w /\ f' = (ie, v))).
  { intros d' scope' w' f' Ha' Hm Hs. rewrite Hst in Hs. destruct (offers ip d' scope' (ie, 0) R) as [|x l] eqn:E.
    - cbn in Hs. destruct (Hold _ _ _ _ Ha' Hm Hs) as [H|(Hle & -> & info' & v' & Ho & Hv)]; [auto|]. exfalso.
      destruct (Hw _ _ _ Ho Hv) as [_ P]. assert (Hoc : occurrence info' (ie, 0) = Some (ie, v')) by (apply occurrence_distinct; [eapply distinct_perm; [symmetry; exact P|exact Hdi]|exact Hv]).
      pose proof (In_offers ip dom scope' (ie, 0) R w info' _ Ho Hoc) as Hx. rewrite E in Hx. destruct Hx.
    - assert (Hall : Forall (fun y => y = (w, (ie, v))) (x :: l)).
      { apply Forall_forall. intros y Hy. rewrite <- E in Hy. now apply Hoff in Hy as (_ & -> & _). }
      rewrite (fold_upd_const (w, (ie, v)) (x :: l)) in Hs; [injection Hs as <- <-; auto|exact Hall|discriminate|].
      intros w0 f0 H0. cbn. destruct (Hold _ _ _ _ Ha' Hm H0) as [H|[H _]]; lia. }
  (* and it is written *)
  destruct (Hcov Hnr _ _ Htell) as (o & Ho & c' & i' & P1 & P2 & ->).
  assert (Hm : scope_matches c' rec).
  { apply carries_matches; [eapply distinct_perm; [symmetry; exact P1|exact Hdc]|eapply carries_perm; [symmetry; exact P1|exact Hc]]. }
  assert (Hin : In (ie, v) i') by (eapply Permutation_in; [symmetry; exact P2|exact Hi]).
  assert (Hoc : occurrence i' (ie, 0) = Some (ie, v)) by (apply occurrence_distinct; [eapply distinct_perm; [symmetry; exact P2|exact Hdi]|exact Hin]).
  assert (Hthere : stored c ip dom c' (ie, 0) = Some (w, (ie, v))).
  { rewrite Hst. pose proof (In_offers ip dom c' (ie, 0) R w i' _ Ho Hoc) as Hx.
    apply fold_upd_const.
    - apply Forall_forall. intros y Hy. now apply Hoff in Hy as (_ & -> & _).
    - intros E. unfold weighted in *. rewrite E in Hx. destruct Hx.
    - intros w0 f0 H0. cbn. destruct (Hold _ _ _ _ Ha Hm H0) as [H|[H _]]; lia. }
  destruct (C34_best_values (ops0 ++ R) ip d rec) as (rs & l & _ & Hrs & Hl & He). fold c in Hrs, Hl, He.
  assert (Hbest : forall w' f', best c ip d rec (ie, 0) w' f' -> w' = w /\ f' = (ie, v)).
  { intros w' f' (d1 & s1 & Ha1 & Hm1 & Hst1 & Hall). destruct (Hlow _ _ _ _ Ha1 Hm1 Hst1) as [H|H]; [|exact H].
    destruct (Hall _ _ _ _ Ha Hm Hthere) as [H'|[H' _]]; lia. }
  assert (Hr0 : In (ie, 0) rs) by (apply Hrs; exists dom, c', (w, (ie, v)); auto).
  assert (Hex : exists f, In f l /\ exists w', best c ip d rec (ie, 0) w' f).
  { clear - Hl Hr0. induction Hl as [|x f rs l [_ Hx] _ IH]; [destruct Hr0|]. destruct Hr0 as [->|Hr0]; [exists f; split; [now left|exact Hx]|].
    destruct (IH Hr0) as (g & Hg & Hb). exists g. split; [now right|exact Hb]. }
  destruct Hex as (f & Hf & w' & Hb). destruct (Hbest _ _ Hb) as [-> ->]. split.
  - intros w' f'. split; [apply Hbest|]. now intros [-> ->].
  - exists l. split; [|exact Hf]. rewrite He. destruct l; [destruct Hf|reflexivity].
Qed.
End Order.

(* ---- isolation ---- *)
Definition view (c : cache) (ip d : N) : smap * smap := (dmap (meta_of c ip) 0, dmap (meta_of c ip) d).
Lemma enrichment_view c ip d fs : wf c -> enrichment_fields c ip d fs =
  let rec := index_fields fs in
  let b := merge_scopes rec (fst (view c ip d)) [] in
  let b' := if d =? 0 then b else merge_scopes rec (snd (view c ip d)) b in
  if is_nil b' then None else Some (map snd (mvals b')).
Proof.
  intros [_ Hw]. unfold enrichment_fields, view, meta_of. cbn [fst snd]. destruct (mget N.eqb ip c) as [pm|] eqn:Ei.
  - pose proof (mget_Forall _ N.eqb_spec _ _ _ _ Hw Ei) as (_ & [_ Hd] & _). cbn in Hd. unfold meta_fields, selected, dmap. cbn [N.eqb].
    destruct (N.eqb_spec d 0) as [->|Hd0].
    + destruct (mget N.eqb 0 (m_domains pm)) as [m|] eqn:Em.
      * exfalso. pose proof (mget_Forall _ N.eqb_spec _ _ _ _ Hd Em) as (Hx & _). now apply Hx.
      * destruct (is_nil (m_global pm) && is_nil (m_domains pm)) eqn:E; [|reflexivity]. apply andb_true_iff in E as [E _]. apply is_nil_eq in E. rewrite E. reflexivity.
    + destruct (is_nil (m_global pm) && is_nil (m_domains pm)) eqn:E.
      * apply andb_true_iff in E as [E1 E2]. apply is_nil_eq in E1, E2. rewrite E1, E2. reflexivity.
      * destruct (mget N.eqb d (m_domains pm)); reflexivity.
  - unfold dmap, meta_new; cbn. now destruct (d =? 0).
Qed.
Lemma meta_of_mset c ip pm ip' : meta_of (mset N.eqb ip pm c) ip' = if ip' =? ip then pm else meta_of c ip'.
Proof. unfold meta_of. rewrite (mget_mset _ N.eqb_spec). now destruct (ip' =? ip). Qed.
Lemma view_upsert_other c ip d ip' dom scope w fs : ip' <> ip \/ (dom <> 0 /\ dom <> d) -> view (upsert ip' dom scope w fs c) ip d = view c ip d.
Proof.
  intros H. destruct fs as [|f fs]; [reflexivity|]. rewrite upsert_eq by discriminate. unfold view. rewrite meta_of_mset. destruct (N.eqb_spec ip ip') as [<-|Hn]; [|reflexivity].
  rewrite !dmap_put. destruct H as [H|[H1 H2]]; [congruence|]. destruct (N.eqb_spec 0 dom); [congruence|]. destruct (N.eqb_spec d dom); [congruence|]. reflexivity.
Qed.
Lemma view_upsert_same c c' ip d dom scope w fs : view c ip d = view c' ip d -> dom = 0 \/ dom = d -> view (upsert ip dom scope w fs c) ip d = view (upsert ip dom scope w fs c') ip d.
Proof.
  intros E H. destruct fs as [|f fs]; [exact E|]. rewrite !upsert_eq by discriminate. unfold view in *. injection E as E1 E2. rewrite !meta_of_mset, N.eqb_refl, !dmap_put.
  destruct H as [-> | ->].
  - rewrite N.eqb_refl, E1. f_equal. destruct (d =? 0); congruence.
  - rewrite N.eqb_refl, E2. f_equal. destruct (0 =? d); congruence.
Qed.
Section Isolation.
Variable traverse : list (fref * field) -> list (fref * field).
Definition concerns (ip d : N) (p : opacket) : bool := (k_ip p =? ip) && ((k_dom p =? 0) || (k_dom p =? d)).
Lemma packet_upserts w p o : In o (packet_ops traverse w p) -> exists scope fs, o = Upsert (k_ip p) (k_dom p) scope w fs.
Proof. unfold packet_ops. intros H. apply in_flat_map in H as (r & _ & H). now apply record_upserts in H. Qed.
Lemma view_packet_other w p ip d : concerns ip d p = false -> forall c, view (fold_left apply_op (packet_ops traverse w p) c) ip d = view c ip d.
Proof.
  intros Hc. assert (Ho : forall o, In o (packet_ops traverse w p) -> exists scope fs, o = Upsert (k_ip p) (k_dom p) scope w fs) by apply packet_upserts.
  induction (packet_ops traverse w p) as [|o ops IH]; intros c; [reflexivity|]. cbn [fold_left]. rewrite IH by (intros o' Ho'; apply Ho; now right).
  destruct (Ho o (or_introl eq_refl)) as (s & f & ->). cbn [apply_op]. apply view_upsert_other. unfold concerns in Hc.
  destruct (N.eqb_spec (k_ip p) ip); [|auto]. cbn [andb] in Hc. apply orb_false_iff in Hc as [H1 H2]. apply N.eqb_neq in H1, H2. auto.
Qed.
Lemma view_packet_same w p ip d : concerns ip d p = true -> forall c c', view c ip d = view c' ip d ->
  view (fold_left apply_op (packet_ops traverse w p) c) ip d = view (fold_left apply_op (packet_ops traverse w p) c') ip d.
Proof.
  intros Hc. assert (Ho : forall o, In o (packet_ops traverse w p) -> exists scope fs, o = Upsert (k_ip p) (k_dom p) scope w fs) by apply packet_upserts.
  apply andb_true_iff in Hc as [Hip Hd]. apply N.eqb_eq in Hip. apply orb_true_iff in Hd. rewrite !N.eqb_eq in Hd.
  induction (packet_ops traverse w p) as [|o ops IH]; intros c c' E; [exact E|]. cbn [fold_left]. apply IH; [intros o' Ho'; apply Ho; now right|].
  destruct (Ho o (or_introl eq_refl)) as (s & f & ->). cbn [apply_op]. rewrite Hip. now apply view_upsert_same.
Qed.
Lemma options_view w ip d ps : forall c c', view c ip d = view c' ip d ->
  view (fold_left apply_op (options_ops traverse w ps) c) ip d = view (fold_left apply_op (options_ops traverse w (filter (concerns ip d) ps)) c') ip d.
Proof.
  induction ps as [|p ps IH]; intros c c' E; [exact E|]. unfold options_ops in *. cbn [flat_map filter]. rewrite fold_left_app. destruct (concerns ip d p) eqn:Hc.
  - cbn [flat_map]. rewrite fold_left_app. apply IH. now apply view_packet_same.
  - apply IH. now rewrite view_packet_other.
Qed.
End Isolation.
