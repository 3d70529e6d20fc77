(* Loading a cache from its directory, and stopping in the middle of a call. *)
From Verif Require Import Base MapLib YcModel YcSpec YcFileProofs YcProofs.
From Coq Require Import String Ascii Permutation.
Open Scope N_scope.

Lemma fold_mset_last {K V A} (eqb : K -> K -> bool) (eqb_spec : forall a b, reflect (a = b) (eqb a b)) (kf : A -> K) (vf : A -> V) k l :
  forall m, (exists x, In x l /\ kf x = k) -> exists x, In x l /\ kf x = k /\
  mget eqb k (fold_left (fun m x => mset eqb (kf x) (vf x) m) l m) = Some (vf x).
Proof.
  induction l as [|z l IH] using rev_ind; intros m (x & Hx & E); [destruct Hx|]. rewrite fold_left_app. cbn [fold_left].
  rewrite (mget_mset _ eqb_spec). destruct (eqb_spec k (kf z)) as [Ez|Ez].
  - exists z. split; [apply in_or_app; right; left; reflexivity|]. auto.
  - destruct (IH m) as (y & A1 & A2 & A3).
    + exists x. split; [|exact E]. apply in_app_or in Hx as [Hx|[->|[]]]; [exact Hx|congruence].
    + exists y. split; [apply in_or_app; left; exact A1|]. auto.
Qed.

Definition pairs_of (dk : disk) : list (sinfo * string) :=
  flat_map (fun de => match load_entry (fst de) (snd de) with Some (_, subs) => map (fun s => (s, fst de)) subs | None => [] end) dk.
Definition put_info (m : list (skey * yref)) (p : sinfo * string) := mset skey_eqb (key_of (fst p)) (YRef (snd p) (snd p)) m.
Definition put_id (m : list (N * N * sinfo)) (p : sinfo * string) := mset id_eqb (id_of (fst p)) (fst p) m.
Lemma index_subs d subs : forall c, fold_left (index_sub (YRef d d)) subs c =
  Cache (by_cid c) (fold_left put_info (map (fun s => (s, d)) subs) (by_info c)) (fold_left put_id (map (fun s => (s, d)) subs) (by_id c)).
Proof. induction subs as [|s subs IH]; intros c; [destruct c; reflexivity|]. cbn [fold_left map]. rewrite IH. reflexivity. Qed.
Lemma from_disk_all dk : forall c, (forall d e, In (d, e) dk -> exists subs, load_entry d e = Some (YRef d d, subs)) ->
  from_disk_acc dk c = Some (Cache (fold_left (fun m (de : string * entry) => mset String.eqb (fst de) (YRef (fst de) (fst de)) m) dk (by_cid c))
                                   (fold_left put_info (pairs_of dk) (by_info c)) (fold_left put_id (pairs_of dk) (by_id c))).
Proof.
  induction dk as [|[d e] dk IH]; intros c H; [destruct c; reflexivity|]. cbn [from_disk_acc].
  destruct (H d e (or_introl eq_refl)) as [subs E]. rewrite E. rewrite index_subs. rewrite IH by (intros d' e' H'; apply H; right; exact H').
  cbn [by_cid by_info by_id yr_cid fold_left fst pairs_of flat_map snd]. rewrite E, !fold_left_app. reflexivity.
Qed.
Lemma in_pairs dk s d : In (s, d) (pairs_of dk) <-> exists e r subs, In (d, e) dk /\ load_entry d e = Some (r, subs) /\ In s subs.
Proof.
  unfold pairs_of. rewrite in_flat_map. split.
  - intros ([d' e] & H1 & H2). cbn [fst snd] in H2. destruct (load_entry d' e) as [[r subs]|] eqn:E; [|destruct H2].
    apply in_map_iff in H2 as (s' & X & Y). injection X as -> ->. exists e, r, subs. auto.
  - intros (e & r & subs & H1 & H2 & H3). exists (d, e). split; [exact H1|]. cbn [fst snd]. rewrite H2. apply in_map_iff. eauto.
Qed.

Section Reload.
Variables (order : list part) (ops : list cop).
Hypothesis (Hset : settled ops) (Hcomp : all_complete ops).
Notation st := (crun order ops).

Lemma entry_loads d e : sget d (snd st) = Some e -> exists subs, load_entry d e = Some (YRef d d, subs) /\
  (forall s, holds ops s d <-> exists s', In s' subs /\ key_of s' = key_of s).
Proof.
  intros E. pose proof (inv_run order ops Hset) as I. destruct (i_entry _ _ I d e E) as (lib & sch & subs & [s0 A] & B & C & D).
  exists subs. split; [|exact D]. subst e. unfold load_entry. cbn [en_lib en_subs en_mods].
  destruct (load_saved lib sch (Hcomp _ _ _ A)) as (r & Hr & _). rewrite Hr, C. reflexivity.
Qed.
Lemma reload dk' : Permutation (snd st) dk' -> exists c', from_disk dk' = Some c' /\ same_answers c' (fst st) /\ (ids_distinct ops -> finds_by_id ops c').
Proof.
  intros Hp. pose proof (inv_run order ops Hset) as I.
  assert (Hin : forall d e, In (d, e) dk' <-> sget d (snd st) = Some e).
  { intros d e. split.
    - intros H. apply (In_mget _ seqb_spec); [apply (i_nodup _ _ I)|]. eapply Permutation_in; [apply Permutation_sym; exact Hp|exact H].
    - intros H. eapply Permutation_in; [exact Hp|]. exact (mget_In _ seqb_spec _ _ _ H). }
  assert (Hpairs : forall s d, (exists s', key_of s' = key_of s /\ In (s', d) (pairs_of dk')) <-> holds ops s d).
  { intros s d. split.
    - intros (s' & E & H). apply in_pairs in H as (e & r & subs & H1 & H2 & H3). apply Hin in H1. destruct (entry_loads d e H1) as (subs' & L & D).
      assert (subs' = subs) by congruence. subst subs'. apply D. eauto.
    - intros H. destruct (sget d (snd st)) as [e|] eqn:E.
      + destruct (entry_loads d e E) as (subs & L & D). apply D in H as (s' & A & B). exists s'. split; [exact B|]. apply in_pairs. exists e, (YRef d d), subs. split; [apply Hin; exact E|auto].
      + apply (i_dirs _ _ I) in E. assert (X : sget d (by_cid (fst st)) = Some (YRef d d)) by (apply (i_cid _ _ I); eauto). congruence. }
  assert (Hp1 : forall s d, In (s, d) (pairs_of dk') -> holds ops s d) by (intros s d H; apply Hpairs; eauto).
  unfold from_disk. rewrite from_disk_all.
  2:{ intros d e H. apply Hin in H. destruct (entry_loads d e H) as (subs & L & _). eauto. }
  cbn [new_cache by_cid by_info by_id]. eexists. split; [reflexivity|].
  assert (Hinfo : forall s d, holds ops s d -> kget (key_of s) (fold_left put_info (pairs_of dk') []) = Some (YRef d d)).
  { intros s d H. pose proof H as H0. apply Hpairs in H as (s' & E & H). unfold kget, put_info.
    rewrite (fold_mset_some skey_eqb skey_eqb_spec (fun p : sinfo * string => key_of (fst p)) (fun p : sinfo * string => YRef (snd p) (snd p)) (key_of s) (s', d)); [reflexivity|exact H|exact E|].
    intros [s2 d2] H2 E2. cbn [fst snd] in *. apply Hp1 in H2. apply (holds_key _ _ _ _ E2) in H2. rewrite (inv_fun _ _ _ _ _ I H2 H0). reflexivity. }
  split; [split|].
  - intros s. unfold get_by_info. cbn [by_info]. destruct (kget (key_of s) (by_info (fst st))) as [r|] eqn:E.
    + apply (i_info _ _ I) in E as (d & -> & H). apply Hinfo. exact H.
    + unfold kget, put_info. rewrite (fold_mset_none skey_eqb skey_eqb_spec (fun p : sinfo * string => key_of (fst p)) (fun p : sinfo * string => YRef (snd p) (snd p))); [reflexivity|].
      intros [s2 d2] H2 E2. cbn [fst] in E2. apply Hp1 in H2. apply (holds_key _ _ _ _ E2) in H2.
      assert (X : kget (key_of s) (by_info (fst st)) = Some (YRef d2 d2)) by (apply (i_info _ _ I); eauto). congruence.
  - intros cid. unfold get_by_cid. cbn [by_cid]. unfold sget at 1. destruct (sget cid (by_cid (fst st))) as [r|] eqn:E.
    + pose proof (proj1 (i_cid _ _ I _ _) E) as [-> _]. destruct (sget cid (snd st)) as [e|] eqn:Ee; [|apply (i_dirs _ _ I) in Ee; congruence].
      apply Hin in Ee. rewrite (fold_mset_some String.eqb seqb_spec (fun de : string * entry => fst de) (fun de : string * entry => YRef (fst de) (fst de)) cid (cid, e)); [reflexivity|exact Ee|reflexivity|].
      intros y _ Ey. cbn [fst]. rewrite Ey. reflexivity.
    + rewrite (fold_mset_none String.eqb seqb_spec (fun de : string * entry => fst de) (fun de : string * entry => YRef (fst de) (fst de))); [reflexivity|].
      intros [d e] H Ed. cbn [fst] in Ed. subst d. apply Hin in H. apply (i_dirs _ _ I) in E. congruence.
  - intros Hids. split.
    + intros s cid H. pose proof H as H0. apply Hpairs in H as (s' & E & H). unfold get_by_id, iget. cbn [by_id].
      destruct (fold_mset_last id_eqb id_eqb_spec (fun p : sinfo * string => id_of (fst p)) (fun p : sinfo * string => fst p) (si_ip s, si_id s) (pairs_of dk') []) as ([s2 d2] & A & B & C).
      { exists (s', cid). split; [exact H|]. unfold id_of. cbn [fst]. unfold key_of in E. congruence. }
      unfold put_id. rewrite C. cbn [fst] in *. exists s2. assert (Hh2 : holds ops s2 d2) by (apply Hp1; exact A).
      assert (Hs2 : same_subscription s2 s).
      { apply (Hids ops [] s2 d2 s cid); [now rewrite app_nil_r|exact Hh2|exact H0| |]; unfold id_of in B; congruence. }
      split; [|exact Hs2]. do 2 f_equal. unfold get_by_info. cbn [by_info]. apply same_key in Hs2. rewrite Hs2. apply Hinfo. exact H0.
    + intros ip id H. unfold get_by_id, iget. cbn [by_id]. unfold put_id.
      rewrite (fold_mset_none id_eqb id_eqb_spec (fun p : sinfo * string => id_of (fst p)) (fun p : sinfo * string => fst p)); [reflexivity|].
      intros [s2 d2] A B. cbn [fst] in B. apply Hp1 in A. unfold id_of in B. apply (H s2 d2 A); congruence.
Qed.
End Reload.

(* ---- the map by id ---- *)
Lemma ids_prefix ops ops' : ids_distinct (ops ++ ops') -> ids_distinct ops.
Proof. intros H b a s1 c1 s2 c2 E. apply (H b (a ++ ops') s1 c1 s2 c2). subst ops. rewrite <- app_assoc. reflexivity. Qed.
Lemma ids_use ops s1 c1 s2 c2 : ids_distinct ops -> holds ops s1 c1 -> holds ops s2 c2 -> id_of s1 = id_of s2 -> key_of s1 = key_of s2.
Proof. intros H H1 H2 E. apply same_key. unfold id_of in E. apply (H ops [] s1 c1 s2 c2); try congruence; try assumption. now rewrite app_nil_r. Qed.
Lemma own_prefix ops ops' : own_cids (ops ++ ops') -> own_cids ops.
Proof. intros H s lib sch X. apply (H s lib sch). apply in_or_app. auto. Qed.
Lemma own_use ops s c : own_cids ops -> holds ops s c -> si_cid s = c.
Proof. intros H X. apply holds_put in X as (s' & lib & sch & A & B & <-). destruct B as (_ & _ & _ & ->). exact (H _ _ _ A). Qed.

Definition inv_id (ops : list cop) (c : cache) : Prop :=
  (forall s cid, holds ops s cid -> exists s', iget (id_of s) (by_id c) = Some s' /\ key_of s' = key_of s) /\
  (forall k s, iget k (by_id c) = Some s -> id_of s = k /\ exists cid, holds ops s cid).
Lemma key_id s s' : key_of s = key_of s' -> id_of s = id_of s'.
Proof. unfold key_of, id_of. congruence. Qed.
Lemma inv_id_put ops c s lib sch : inv_id ops c -> ids_distinct (ops ++ [Put s lib sch]) -> (forall cid, ~ holds ops s cid) ->
  inv_id (ops ++ [Put s lib sch]) (Cache (by_cid c) (by_info c) (iset (id_of s) s (by_id c))).
Proof.
  intros [J1 J2] Hi Hno. assert (Hs : holds (ops ++ [Put s lib sch]) s (yl_cid lib)) by (apply holds_put_snoc; auto). split; cbn [by_id].
  - intros s' cid H. unfold iget, iset. rewrite (mget_mset _ id_eqb_spec). destruct (id_eqb_spec (id_of s') (id_of s)) as [E|E].
    + exists s. split; [reflexivity|]. symmetry. exact (ids_use _ _ _ _ _ Hi H Hs E).
    + apply holds_put_snoc in H as [H|[H _]]; [exact (J1 s' cid H)|]. apply key_id in H. congruence.
  - intros k s'. unfold iget, iset. rewrite (mget_mset _ id_eqb_spec). destruct (id_eqb_spec k (id_of s)) as [->|E].
    + intros X. injection X as <-. split; [reflexivity|]. eauto.
    + intros X. destruct (J2 k s' X) as [A [cid B]]. split; [exact A|]. exists cid. apply holds_put_snoc. auto.
Qed.
Lemma inv_id_ext ops ops' c c' : inv_id ops c -> by_id c' = by_id c -> (forall s cid, holds ops' s cid <-> holds ops s cid) -> inv_id ops' c'.
Proof.
  intros [J1 J2] E H. split; rewrite E.
  - intros s cid X. apply (J1 s cid). apply H. exact X.
  - intros k s X. destruct (J2 k s X) as [A [cid B]]. split; [exact A|]. exists cid. apply H. exact B.
Qed.
Lemma put_by_id c dk s lib sch : by_id (snd (fst (put_plan c dk s lib sch))) = by_id c \/ by_id (snd (fst (put_plan c dk s lib sch))) = iset (id_of s) s (by_id c).
Proof.
  unfold put_plan. destruct (sget _ _) as [r|].
  - destruct (kget _ _); [left; reflexivity|]. destruct (append_plan dk r s) as [xs []]; [right|left]; reflexivity.
  - destruct (save_plan _ _ _ _ _) as [xs []]; [right|left]; reflexivity.
Qed.
Lemma put_result order ops s lib sch : settled (ops ++ [Put s lib sch]) ->
  by_id (op_cache order (crun order ops) (Put s lib sch)) =
  match kget (key_of s) (by_info (fst (crun order ops))) with Some _ => by_id (fst (crun order ops)) | None => iset (id_of s) s (by_id (fst (crun order ops))) end.
Proof.
  intros Hs. pose proof (inv_run order ops (settled_prefix _ _ Hs)) as I. destruct (inv_put _ _ s lib sch order I Hs) as [_ R].
  unfold op_cache. unfold put_plan in *. destruct (sget _ _) as [r|] eqn:Ec.
  - destruct (kget _ _); [reflexivity|]. destruct (append_plan _ r s) as [xs []]; [reflexivity|discriminate R].
  - destruct (kget (key_of s) _) as [r|] eqn:Ek.
    + exfalso. apply (i_info _ _ I) in Ek as (cid & -> & H). pose proof (settled_last _ _ _ _ _ Hs H) as X.
      assert (Y : sget (yl_cid lib) (by_cid (fst (crun order ops))) = Some (YRef cid cid)) by (subst cid; apply (i_cid _ _ I); eauto). congruence.
    + destruct (save_plan _ _ _ _ _) as [xs []]; [reflexivity|discriminate R].
Qed.
Lemma inv_id_run order ops : settled ops -> ids_distinct ops -> own_cids ops -> inv_id ops (fst (crun order ops)).
Proof.
  induction ops as [|o ops IH] using rev_ind; intros Hs Hi Ho.
  { split; [intros s cid H; exfalso; exact (holds_nil _ _ H)|]. intros k s X. discriminate X. }
  specialize (IH (settled_prefix _ _ Hs) (ids_prefix _ _ Hi) (own_prefix _ _ Ho)). pose proof (inv_run order ops (settled_prefix _ _ Hs)) as I.
  rewrite crun_snoc. unfold cstep. cbn [fst]. destruct o as [s lib sch|cid|s].
  - pose proof (put_result order ops s lib sch Hs) as R. destruct (kget (key_of s) (by_info (fst (crun order ops)))) as [r|] eqn:Ek.
    + apply (inv_id_ext ops _ _ _ IH R). intros s' c'. rewrite holds_put_snoc. split; [|auto]. intros [H|[H <-]]; [exact H|].
      apply (i_info _ _ I) in Ek as (cid & -> & Hh). pose proof (settled_last _ _ _ _ _ Hs Hh) as ->. apply (holds_key _ s); [congruence|exact Hh].
    + assert (Hno : forall cid, ~ holds ops s cid).
      { intros cid H. assert (X : kget (key_of s) (by_info (fst (crun order ops))) = Some (YRef cid cid)) by (apply (i_info _ _ I); eauto). congruence. }
      apply (inv_id_ext _ _ _ _ (inv_id_put ops _ s lib sch IH Hi Hno) R). intros s' c'. reflexivity.
  - unfold op_cache, rm_cid_plan. destruct (sget cid _) as [r|] eqn:Ec.
    + assert (E : forall c1 c2 c3 x y (z : bool), by_id (snd (fst (x : list dstep, Cache c1 c2 c3, y : bool))) = c3) by reflexivity.
      set (c' := Cache _ _ _). assert (H : snd (fst match sget (yr_dir r) (snd (crun order ops)) with
        | Some e => match en_lib e with Some _ => (RmLib (yr_dir r) :: rm_dir_plan order (yr_dir r), c', true) | None => ([], c', false) end
        | None => ([], c', false) end) = c').
      { destruct (sget (yr_dir r) (snd (crun order ops))) as [e|]; [destruct (en_lib e)|]; reflexivity. }
      rewrite H. destruct IH as [J1 J2]. split; subst c'; cbn [by_id].
      * intros s c Hh. apply holds_rmcid in Hh as [Hh Hn]. destruct (J1 s c Hh) as (s' & A & B). exists s'. split; [|exact B].
        unfold iget in *. rewrite (mget_filter _ id_eqb_spec) by apply (i_nodup3 _ _ I). rewrite A. cbn [snd].
        assert (X : si_cid s' = c) by (rewrite <- (own_use ops s c (own_prefix _ _ Ho) Hh); unfold key_of in B; congruence).
        rewrite X. destruct (String.eqb_spec c cid); [congruence|reflexivity].
      * intros k s. unfold iget. rewrite (mget_filter _ id_eqb_spec) by apply (i_nodup3 _ _ I).
        destruct (mget id_eqb k (by_id (fst (crun order ops)))) as [s'|] eqn:Em; [|intros X; discriminate X]. cbn [snd].
        destruct (String.eqb_spec (si_cid s') cid) as [Ex|Ex]; cbn [negb]; intros X; [discriminate X|]. injection X as ->.
        destruct (J2 k s Em) as [A [c2 B]]. split; [exact A|]. exists c2. apply holds_rmcid. split; [exact B|]. rewrite <- (own_use ops s c2 (own_prefix _ _ Ho) B). exact Ex.
    + cbn [fst snd]. apply (inv_id_ext ops _ _ _ IH eq_refl). intros s c. rewrite holds_rmcid. split; [tauto|]. intros H. split; [exact H|]. intros ->.
      assert (X : sget cid (by_cid (fst (crun order ops))) = Some (YRef cid cid)) by (apply (i_cid _ _ I); eauto). congruence.
  - destruct (kget (key_of s) (by_info (fst (crun order ops)))) as [r|] eqn:Ek.
    + assert (H : by_id (op_cache order (crun order ops) (RmInfo s)) = irem (id_of s) (by_id (fst (crun order ops)))).
      { unfold op_cache, rm_info_plan. rewrite Ek. destruct (existsb _ _); destruct (sget (yr_cid r) _) as [r'|]; try reflexivity.
        - destruct (remove_sub_plan _ r' s) as [xs []]; reflexivity.
        - destruct (remove_sub_plan _ r' s) as [xs []]; reflexivity. }
      pose proof (proj1 (i_info _ _ I _ _) Ek) as (cid & -> & Hh). destruct IH as [J1 J2]. split; rewrite H.
      * intros s' c' H'. apply holds_rminfo in H' as [H' Hn]. destruct (J1 s' c' H') as (s2 & A & B). exists s2. split; [|exact B].
        unfold iget, irem in *. rewrite (mget_mrem _ id_eqb_spec). destruct (id_eqb_spec (id_of s') (id_of s)) as [E|E]; [|exact A].
        exfalso. apply Hn. exact (ids_use _ _ _ _ _ (ids_prefix _ _ Hi) H' Hh E).
      * intros k s'. unfold iget, irem. rewrite (mget_mrem _ id_eqb_spec). destruct (id_eqb_spec k (id_of s)) as [E|E]; intros X; [discriminate X|].
        destruct (J2 k s' X) as [A [c2 B]]. split; [exact A|]. exists c2. apply holds_rminfo. split; [exact B|]. intros E2. apply key_id in E2. congruence.
    + assert (H : op_cache order (crun order ops) (RmInfo s) = fst (crun order ops)) by (unfold op_cache, rm_info_plan; rewrite Ek; reflexivity).
      rewrite H. apply (inv_id_ext ops _ _ _ IH eq_refl). intros s' c'. rewrite holds_rminfo. split; [tauto|]. intros X. split; [exact X|]. intros E.
      apply (holds_key _ _ _ _ E) in X. assert (Y : kget (key_of s) (by_info (fst (crun order ops))) = Some (YRef c' c')) by (apply (i_info _ _ I); eauto). congruence.
Qed.
Lemma finds_run order ops : settled ops -> ids_distinct ops -> own_cids ops -> finds_by_id ops (fst (crun order ops)).
Proof.
  intros Hs Hi Ho. destruct (inv_id_run order ops Hs Hi Ho) as [J1 J2]. pose proof (inv_run order ops Hs) as I. split.
  - intros s cid H. destruct (J1 s cid H) as (s' & A & B). exists s'. unfold get_by_id. change (si_ip s, si_id s) with (id_of s). rewrite A.
    split; [|apply same_key; exact B]. do 2 f_equal. unfold get_by_info. rewrite B. apply (i_info _ _ I). eauto.
  - intros ip id H. unfold get_by_id. destruct (iget (ip, id) (by_id (fst (crun order ops)))) as [s|] eqn:E; [|reflexivity].
    exfalso. destruct (J2 _ _ E) as [A [cid B]]. unfold id_of in A. injection A as A1 A2. exact (H s cid B A1 A2).
Qed.

(* ---- stopping in the middle ---- *)
Lemma from_disk_bad dk : forall c d e, sget d dk = Some e -> load_entry d e = None -> from_disk_acc dk c = None.
Proof.
  induction dk as [|[d0 e0] dk IH]; intros c d e E L; [discriminate E|]. unfold sget in E. cbn [mget] in E. cbn [from_disk_acc].
  destruct (String.eqb_spec d d0) as [->|N].
  - injection E as ->. rewrite L. reflexivity.
  - destruct (load_entry d0 e0) as [[r subs]|]; [|reflexivity]. eapply IH; eauto.
Qed.
Lemma from_disk_same dk : forall c d e e', sget d dk = Some e -> load_entry d e' = load_entry d e -> from_disk_acc (sset d e' dk) c = from_disk_acc dk c.
Proof.
  induction dk as [|[d0 e0] dk IH]; intros c d e e' E L; [discriminate E|]. unfold sget in E. cbn [mget] in E. unfold sset. cbn [mset].
  destruct (String.eqb_spec d d0) as [->|N]; cbn [from_disk_acc].
  - injection E as ->. rewrite L. reflexivity.
  - destruct (load_entry d0 e0) as [[r subs]|]; [|reflexivity]. eapply IH; eauto.
Qed.
Lemma tmp_atomic dk d e l k : sget d dk = Some e ->
  let xs := [PutTmp d Cut; PutTmp d (Full l); RenameTmp d] in
  from_disk (do_steps dk (firstn k xs)) = from_disk dk \/ firstn k xs = xs.
Proof.
  intros E xs. destruct k as [|[|[|k]]]; [left; reflexivity| | |right; subst xs; cbn; now rewrite firstn_nil].
  - left. cbn [xs firstn do_steps fold_left do_step]. rewrite (upd_some _ _ _ _ E). apply (from_disk_same _ _ _ _ _ E). reflexivity.
  - left. cbn [xs firstn do_steps fold_left do_step]. rewrite (upd_some _ _ _ _ E), upd_sset. apply (from_disk_same _ _ _ _ _ E). reflexivity.
Qed.
Lemma append_atomic dk r s k : let xs := fst (append_plan dk r s) in
  from_disk (do_steps dk (firstn k xs)) = from_disk dk \/ firstn k xs = xs.
Proof.
  unfold append_plan. destruct (sget (yr_dir r) dk) as [e|] eqn:E; [|left; cbn; now rewrite firstn_nil].
  destruct (en_subs e) as [[|l]|].
  - left. cbn. now rewrite firstn_nil.
  - destruct (existsb _ l); [left; cbn; now rewrite firstn_nil|]. apply (tmp_atomic _ _ _ _ _ E).
  - destruct k as [|k]; [left; reflexivity|right; cbn; now rewrite firstn_nil].
Qed.
Lemma remove_atomic dk r s k : let xs := fst (remove_sub_plan dk r s) in
  from_disk (do_steps dk (firstn k xs)) = from_disk dk \/ firstn k xs = xs.
Proof.
  unfold remove_sub_plan. destruct (sget (yr_dir r) dk) as [e|] eqn:E; [|left; cbn; now rewrite firstn_nil].
  destruct (en_subs e) as [[|l]|]; try (left; cbn; now rewrite firstn_nil).
  destruct (existsb _ l); [|left; cbn; now rewrite firstn_nil]. apply (tmp_atomic _ _ _ _ _ E).
Qed.
Lemma save_crash dk d lib sch subs k : sget d dk = None -> (1 <= k <= 4)%nat -> from_disk (do_steps dk (firstn k (fst (save_plan dk d lib sch subs)))) = None.
Proof.
  intros Hn Hk. unfold save_plan. rewrite Hn. cbn [fst snd en_lib en_subs no_entry app].
  assert (X : forall e', load_entry d e' = None -> from_disk (sset d e' dk) = None).
  { intros e' L. apply (from_disk_bad _ _ d e'); [|exact L]. unfold sget, sset. apply (mget_mset_eq _ seqb_spec). }
  destruct k as [|[|[|[|[|k]]]]]; try lia; cbn [firstn do_steps fold_left do_step]; rewrite Hn, ?upd_sset; apply X; reflexivity.
Qed.
Lemma rm_parts_prefix d : forall order dk e, sget d dk = Some e -> exists e', sget d (do_steps dk (map (rm_part d) order)) = Some e' /\
  (en_lib e = None -> en_lib e' = None) /\ (In PartLib order -> en_lib e' = None).
Proof.
  induction order as [|p order IH]; intros dk e E; [exists e; split; [exact E|split; [auto|intros []]]|].
  cbn [map]. change (do_steps dk (rm_part d p :: map (rm_part d) order)) with (do_steps (do_step dk (rm_part d p)) (map (rm_part d) order)).
  assert (X : exists e1, sget d (do_step dk (rm_part d p)) = Some e1 /\ (en_lib e = None -> en_lib e1 = None) /\ (p = PartLib -> en_lib e1 = None)).
  { destruct p; cbn [rm_part do_step]; rewrite (upd_some _ _ _ _ E); (eexists; split; [unfold sget, sset; apply (mget_mset_eq _ seqb_spec)|]); split; auto; intros Y; discriminate Y. }
  destruct X as (e1 & A & B & C). destruct (IH _ _ A) as (e' & A' & B' & C'). exists e'. split; [exact A'|]. split; [auto|].
  intros [->|H]; auto.
Qed.
Lemma lib_gone dk d e : sget d dk = Some e -> en_lib e = None -> from_disk dk = None.
Proof. intros E H. apply (from_disk_bad _ _ d e E). unfold load_entry. rewrite H. reflexivity. Qed.

(* ---- paths ---- *)
Lemma split_plain p : has_char "/" p = false -> split_path p = [p].
Proof.
  induction p as [|a p IH]; cbn [has_char split_path]; [reflexivity|]. intros H. apply Bool.orb_false_iff in H as [H1 H2].
  unfold slash. rewrite Ascii.eqb_sym, H1, (IH H2). reflexivity.
Qed.
Lemma walk_plain up p ps : plain p -> walk up (p :: ps) = walk (p :: up) ps.
Proof.
  intros (H1 & H2 & H3 & _). cbn [walk]. destruct (String.eqb_spec p ""); [congruence|]. destruct (String.eqb_spec p "."); [congruence|].
  destruct (String.eqb_spec p ".."); [congruence|]. reflexivity.
Qed.
Lemma entry_dir_plain root cid : plain cid -> entry_dir root cid = root ++ [cid].
Proof.
  intros H. pose proof H as (H1 & _ & _ & H4). unfold entry_dir. rewrite (split_plain _ H4), (walk_plain _ _ _ H). cbn [walk].
  assert (is_absolute cid = false) as ->.
  { destruct cid as [|a cid]; [reflexivity|]. cbn [has_char is_absolute] in H4 |- *. apply Bool.orb_false_iff in H4 as [H4 _]. unfold slash. rewrite Ascii.eqb_sym. exact H4. }
  cbn [rev]. now rewrite rev_involutive.
Qed.
Fixpoint join (ps : list string) : string :=
  match ps with [] => "" | p :: ps' => ("/" ++ p ++ join ps')%string end.
Lemma split_app p q : has_char "/" p = false -> split_path (p ++ q) = match split_path q with [] => [p] | x :: xs => (p ++ x)%string :: xs end.
Proof.
  induction p as [|a p IH]; intros H; cbn [append].
  - destruct (split_path q) eqn:E; [|reflexivity]. destruct q as [|b q]; cbn [split_path] in E; [discriminate E|]. destruct (Ascii.eqb b slash); [discriminate E|]. destruct (split_path q); discriminate E.
  - cbn [has_char] in H. apply Bool.orb_false_iff in H as [H1 H2]. cbn [split_path]. unfold slash. rewrite Ascii.eqb_sym, H1, (IH H2). destruct (split_path q); reflexivity.
Qed.
Lemma append_nil_r s : (s ++ "")%string = s.
Proof. induction s as [|a s IH]; cbn; [reflexivity|]. now rewrite IH. Qed.
Lemma walk_join ps : forall up, Forall plain ps -> walk up (split_path (join ps)) = rev ps ++ up.
Proof.
  induction ps as [|p ps IH]; intros up H; [reflexivity|]. inversion H as [|? ? Hp Hps]; subst. destruct Hp as (H1 & H2 & H3 & H4).
  cbn [join append split_path]. change (Ascii.eqb "/" slash) with true. cbn [walk]. change (String.eqb "" "" || String.eqb "" ".")%bool with true. cbv iota.
  rewrite (split_app _ _ H4). specialize (IH (p :: up) Hps).
  destruct ps as [|p2 ps].
  - cbn [join split_path]. rewrite append_nil_r. rewrite walk_plain by (repeat split; assumption). reflexivity.
  - cbn [join append split_path] in IH |- *. change (Ascii.eqb "/" slash) with true in *. cbv iota in *. rewrite append_nil_r.
    rewrite walk_plain by (repeat split; assumption). cbn [walk] in IH. change (String.eqb "" "" || String.eqb "" ".")%bool with true in IH. cbv iota in IH.
    rewrite IH. cbn [rev]. rewrite <- !app_assoc. reflexivity.
Qed.
Lemma entry_dir_any root ps : Forall plain ps -> ps <> [] -> entry_dir root (join ps) = ps.
Proof.
  intros H Hn. unfold entry_dir. rewrite (walk_join _ _ H). destruct ps as [|p ps]; [congruence|]. cbn [join append is_absolute].
  change (Ascii.eqb "/" slash) with true. cbv iota. now rewrite app_nil_r, rev_involutive.
Qed.
