(* The cache and its directory after a history of calls. *)
From Verif Require Import Base MapLib YcModel YcSpec YcFileProofs.
From Coq Require Import String Ascii Permutation.
Open Scope N_scope.

Section Gen.
Context {K V : Type} (eqb : K -> K -> bool) (eqb_spec : forall a b, reflect (a = b) (eqb a b)).
Lemma mset_mset k v v' m : mset eqb k v (mset eqb k v' m) = @mset K V eqb k v m.
Proof.
  induction m as [|[k' w] m IH]; cbn; [now rewrite (eqb_refl' _ eqb_spec)|].
  destruct (eqb k k') eqn:E; cbn; rewrite E; [reflexivity|]. now rewrite IH.
Qed.
Lemma mrem_mset k v m : mrem eqb k (mset eqb k v m) = @mrem K V eqb k m.
Proof.
  induction m as [|[k' w] m IH]; cbn; [now rewrite (eqb_refl' _ eqb_spec)|].
  destruct (eqb k k') eqn:E; cbn; rewrite E; [reflexivity|]. now rewrite IH.
Qed.
(* folding insertions whose values agree with a function of the key *)
Lemma fold_mset_none {A} (kf : A -> K) (vf : A -> V) k l : forall m, (forall x, In x l -> kf x <> k) ->
  mget eqb k (fold_left (fun m x => mset eqb (kf x) (vf x) m) l m) = mget eqb k m.
Proof.
  induction l as [|x l IH]; intros m H; cbn; [reflexivity|]. rewrite IH by (intros y Hy; apply H; right; exact Hy).
  apply (mget_mset_neq _ eqb_spec). intros E. apply (H x); [left; reflexivity|congruence].
Qed.
Lemma fold_mset_some {A} (kf : A -> K) (vf : A -> V) k x l : forall m, In x l -> kf x = k -> (forall y, In y l -> kf y = k -> vf y = vf x) ->
  mget eqb k (fold_left (fun m x => mset eqb (kf x) (vf x) m) l m) = Some (vf x).
Proof.
  revert x. induction l as [|z l IH]; intros x m H Hk Hu; [destruct H|]. cbn.
  assert (D : (exists y, In y l /\ kf y = k) \/ forall y, In y l -> kf y <> k).
  { clear - eqb_spec. induction l as [|y l [(w & A1 & A2)|IH]].
    - right. intros y [].
    - left. exists w. split; [right; exact A1|exact A2].
    - destruct (eqb_spec (kf y) k) as [E|E]; [left; exists y; split; [left; reflexivity|exact E]|].
      right. intros w [<-|Hw]; [exact E|exact (IH w Hw)]. }
  destruct D as [(y & Hy & Ey)|D].
  - rewrite <- (Hu y (or_intror Hy) Ey). apply (IH y); [exact Hy|exact Ey|]. intros w Hw Ew. rewrite (Hu w (or_intror Hw) Ew). symmetry. exact (Hu y (or_intror Hy) Ey).
  - rewrite fold_mset_none by exact D. destruct H as [->|H]; [|exfalso; exact (D x H Hk)].
    rewrite <- Hk. apply (mget_mset_eq _ eqb_spec).
Qed.
End Gen.

(* ---- what is held after one more call ---- *)
Lemma holds_key ops s s' c : key_of s = key_of s' -> holds ops s c -> holds ops s' c.
Proof.
  intros E (b & s0 & lib & sch & a & H1 & H2 & H3 & H4). exists b, s0, lib, sch, a. split; [exact H1|]. split; [|split; [exact H3|]].
  - apply same_key. apply same_key in H2. congruence.
  - intros o Ho R. apply (H4 o Ho). destruct o; cbn in *; auto. apply same_key. apply same_key in R. congruence.
Qed.
Lemma snoc_split {A} (ops : list A) o b x a : ops ++ [o] = b ++ x :: a ->
  (a = [] /\ o = x /\ ops = b) \/ exists a', a = a' ++ [o] /\ ops = b ++ x :: a'.
Proof.
  destruct a as [|y a _] using rev_ind; intros E.
  - apply app_inj_tail in E as [E1 E2]. left. auto.
  - right. exists a. rewrite app_comm_cons, app_assoc in E. apply app_inj_tail in E as [E1 E2]. subst. auto.
Qed.
Lemma holds_snoc ops o s c : holds (ops ++ [o]) s c <->
  (holds ops s c /\ ~ removes o s c) \/ (exists s' lib sch, o = Put s' lib sch /\ same_subscription s s' /\ yl_cid lib = c).
Proof.
  split.
  - intros (b & s' & lib & sch & a & H1 & H2 & H3 & H4). apply snoc_split in H1 as [(-> & -> & ->)|(a' & -> & ->)].
    + right. exists s', lib, sch. auto.
    + left. split; [|apply H4; apply in_or_app; right; left; reflexivity].
      exists b, s', lib, sch, a'. repeat (split; [assumption || reflexivity|]). intros o' Ho. apply H4. apply in_or_app. left. exact Ho.
  - intros [[(b & s' & lib & sch & a & H1 & H2 & H3 & H4) H5]|(s' & lib & sch & -> & H2 & H3)].
    + exists b, s', lib, sch, (a ++ [o]). subst ops. rewrite <- app_assoc. repeat (split; [assumption || reflexivity|]).
      intros o' Ho. apply in_app_or in Ho as [Ho|[<-|[]]]; [exact (H4 o' Ho)|exact H5].
    + exists ops, s', lib, sch, []. repeat (split; [assumption || reflexivity|]). intros o' [].
Qed.
Lemma holds_nil s c : ~ holds [] s c.
Proof. intros (b & s' & lib & sch & a & H & _). destruct b; discriminate H. Qed.
Lemma holds_put ops s c : holds ops s c -> exists s' lib sch, In (Put s' lib sch) ops /\ same_subscription s s' /\ yl_cid lib = c.
Proof. intros (b & s' & lib & sch & a & -> & H2 & H3 & _). exists s', lib, sch. split; [apply in_or_app; right; left; reflexivity|auto]. Qed.
Lemma settled_prefix ops ops' : settled (ops ++ ops') -> settled ops.
Proof. intros H b s lib sch a cid E. apply (H b s lib sch (a ++ ops') cid). subst ops. rewrite <- app_assoc. reflexivity. Qed.
Lemma settled_last ops s lib sch cid : settled (ops ++ [Put s lib sch]) -> holds ops s cid -> yl_cid lib = cid.
Proof. intros H. apply (H ops s lib sch []). reflexivity. Qed.
Lemma settled_nil : settled [].
Proof. intros b s lib sch a cid E. destruct b; discriminate E. Qed.

(* ---- steps on a directory ---- *)
Lemma upd_some d f dk e : sget d dk = Some e -> upd d f dk = sset d (f e) dk.
Proof. unfold upd. intros ->. reflexivity. Qed.
Lemma upd_sset d f dk e : upd d f (sset d e dk) = sset d (f e) dk.
Proof. unfold upd, sget, sset. rewrite (mget_mset_eq _ seqb_spec), (mset_mset _ seqb_spec). reflexivity. Qed.
Lemma do_steps_app dk a b : do_steps dk (a ++ b) = do_steps (do_steps dk a) b.
Proof. apply fold_left_app. Qed.
Lemma do_mods d lib sch : forall dk a b t ms,
  do_steps (sset d (Entry a b t (Some ms)) dk) (flat_map (fun nt => [PutMod d (saved_name (fst nt) lib) ""; PutMod d (saved_name (fst nt) lib) (snd nt)]) sch) =
  sset d (Entry a b t (Some (fold_left (file_step lib) sch ms))) dk.
Proof.
  induction sch as [|nt sch IH]; intros dk a b t ms; cbn [flat_map fold_left]; [reflexivity|].
  rewrite do_steps_app. cbn [do_steps fold_left do_step]. rewrite !upd_sset. cbn. apply IH.
Qed.
Lemma save_fresh dk d lib sch subs : sget d dk = None -> yl_cid lib = d ->
  snd (save_plan dk d lib sch subs) = true /\
  do_steps dk (fst (save_plan dk d lib sch subs)) = sset d (Entry (Some (Full lib)) (Some (Full subs)) None (Some (files_of lib sch))) dk.
Proof.
  intros Hn Hc. unfold save_plan. rewrite Hn. cbn [fst snd en_lib en_subs no_entry]. split; [reflexivity|].
  cbn [app]. unfold do_steps. cbn [fold_left do_step]. rewrite Hn, !upd_sset. cbn. apply do_mods.
Qed.
Lemma append_result dk d l s e : sget d dk = Some e -> en_subs e = Some (Full l) -> (forall s', In s' l -> key_of s' <> key_of s) ->
  append_plan dk (YRef d d) s = ([PutTmp d Cut; PutTmp d (Full (l ++ [s])); RenameTmp d], true) /\
  do_steps dk [PutTmp d Cut; PutTmp d (Full (l ++ [s])); RenameTmp d] = sset d (Entry (en_lib e) (Some (Full (l ++ [s]))) None (en_mods e)) dk.
Proof.
  intros He Hl Hn. unfold append_plan. cbn [yr_dir]. rewrite He, Hl.
  replace (existsb (fun i => same_sub i s) l) with false.
  - split; [reflexivity|]. unfold do_steps. cbn [fold_left do_step]. rewrite (upd_some _ _ _ _ He), !upd_sset. reflexivity.
  - symmetry. apply Bool.not_true_iff_false. intros X. apply existsb_exists in X as (s' & H1 & H2). apply (Hn s' H1). destruct (same_sub_spec s' s); congruence.
Qed.
Lemma remove_result dk d l s e : sget d dk = Some e -> en_subs e = Some (Full l) -> (exists s', In s' l /\ key_of s' = key_of s) ->
  remove_sub_plan dk (YRef d d) s = ([PutTmp d Cut; PutTmp d (Full (filter (fun i => negb (same_sub i s)) l)); RenameTmp d], true) /\
  do_steps dk [PutTmp d Cut; PutTmp d (Full (filter (fun i => negb (same_sub i s)) l)); RenameTmp d] =
  sset d (Entry (en_lib e) (Some (Full (filter (fun i => negb (same_sub i s)) l))) None (en_mods e)) dk.
Proof.
  intros He Hl (s' & H1 & H2). unfold remove_sub_plan. cbn [yr_dir]. rewrite He, Hl.
  replace (existsb (fun i => same_sub i s) l) with true.
  - split; [reflexivity|]. unfold do_steps. cbn [fold_left do_step]. rewrite (upd_some _ _ _ _ He), !upd_sset. reflexivity.
  - symmetry. apply existsb_exists. exists s'. split; [exact H1|]. destruct (same_sub_spec s' s); congruence.
Qed.
Lemma srem_sset d (e : entry) dk : srem d (sset d e dk) = srem d dk.
Proof. apply (mrem_mset _ seqb_spec). Qed.
Lemma srem_upd d f dk : srem d (upd d f dk) = srem d dk.
Proof. unfold upd. destruct (sget d dk); [|reflexivity]. apply (mrem_mset _ seqb_spec). Qed.
Lemma rm_dir_result order d : forall dk, do_steps dk (rm_dir_plan order d) = srem d dk.
Proof.
  unfold rm_dir_plan. induction order as [|p order IH]; intros dk; [reflexivity|].
  cbn [map app]. change (do_steps (do_step dk (rm_part d p)) (map (rm_part d) order ++ [RmDir d]) = srem d dk).
  rewrite IH. destruct p; cbn [rm_part do_step]; apply srem_upd.
Qed.

(* ---- the invariant ---- *)
Record inv (ops : list cop) (st : cstate) : Prop := {
  i_cid : forall cid r, sget cid (by_cid (fst st)) = Some r <-> r = YRef cid cid /\ exists s, holds ops s cid;
  i_info : forall s r, kget (key_of s) (by_info (fst st)) = Some r <-> exists cid, r = YRef cid cid /\ holds ops s cid;
  i_nodup : NoDup (mkeys (snd st));
  i_nodup2 : NoDup (mkeys (by_info (fst st)));
  i_nodup3 : NoDup (mkeys (by_id (fst st)));
  i_dirs : forall d, sget d (snd st) = None <-> sget d (by_cid (fst st)) = None;
  i_entry : forall d e, sget d (snd st) = Some e -> exists lib sch subs,
    (exists s, In (Put s lib sch) ops) /\ e = Entry (Some (Full lib)) (Some (Full subs)) None (Some (files_of lib sch)) /\
    yl_cid lib = d /\ (forall s, holds ops s d <-> exists s', In s' subs /\ key_of s' = key_of s) }.

Lemma inv_nil : inv [] (new_cache, []).
Proof.
  constructor; cbn.
  - intros cid r. split; [intros E; discriminate E|]. intros [_ [s H]]. exfalso. exact (holds_nil _ _ H).
  - intros s r. split; [intros E; discriminate E|]. intros (c & _ & H). exfalso. exact (holds_nil _ _ H).
  - constructor.
  - constructor.
  - constructor.
  - intros d. split; reflexivity.
  - intros d e E. discriminate E.
Qed.
Lemma inv_fun ops st s c c' : inv ops st -> holds ops s c -> holds ops s c' -> c = c'.
Proof.
  intros I H H'. assert (A : kget (key_of s) (by_info (fst st)) = Some (YRef c c)) by (apply (i_info _ _ I); eauto).
  assert (B : kget (key_of s) (by_info (fst st)) = Some (YRef c' c')) by (apply (i_info _ _ I); eauto). congruence.
Qed.
Lemma inv_same ops st o : inv ops st -> (forall s c, holds (ops ++ [o]) s c <-> holds ops s c) -> inv (ops ++ [o]) st.
Proof.
  intros I H. constructor.
  - intros cid r. rewrite (i_cid _ _ I). split; intros [A [s B]]; (split; [exact A|]); exists s; apply H; exact B.
  - intros s r. rewrite (i_info _ _ I). split; intros (c & A & B); exists c; (split; [exact A|]); apply H; exact B.
  - apply (i_nodup _ _ I).
  - apply (i_nodup2 _ _ I).
  - apply (i_nodup3 _ _ I).
  - apply (i_dirs _ _ I).
  - intros d e E. destruct (i_entry _ _ I d e E) as (lib & sch & subs & [s0 A] & B & C & D). exists lib, sch, subs.
    split; [exists s0; apply in_or_app; left; exact A|]. split; [exact B|]. split; [exact C|]. intros s. rewrite H. apply D.
Qed.
(* a put of a pair *)
Lemma holds_put_snoc ops s lib sch s' c : holds (ops ++ [Put s lib sch]) s' c <-> holds ops s' c \/ (key_of s' = key_of s /\ yl_cid lib = c).
Proof.
  rewrite holds_snoc. split.
  - intros [[H _]|(a & b & d & E & H1 & H2)]; [left; exact H|]. injection E as -> -> ->. right. split; [apply same_key; exact H1|exact H2].
  - intros [H|[H1 H2]]; [left; split; [exact H|intros []]|]. right. exists s, lib, sch. split; [reflexivity|]. split; [apply same_key; exact H1|exact H2].
Qed.
Lemma kget_kset k k2 v m : kget k (kset k2 v m) = if skey_eqb k k2 then Some v else @kget yref k m.
Proof. apply (mget_mset _ skey_eqb_spec). Qed.
Lemma sget_sset {V} k k2 (v : V) m : sget k (sset k2 v m) = if String.eqb k k2 then Some v else sget k m.
Proof. apply (mget_mset _ seqb_spec). Qed.
Lemma sget_srem {V} k k2 (m : list (string * V)) : sget k (srem k2 m) = if String.eqb k k2 then None else sget k m.
Proof. apply (mget_mrem _ seqb_spec). Qed.

Lemma inv_put ops st s lib sch order : inv ops st -> settled (ops ++ [Put s lib sch]) ->
  inv (ops ++ [Put s lib sch]) (cstep order st (Put s lib sch)) /\ snd (put_plan (fst st) (snd st) s lib sch) = Some (YRef (yl_cid lib) (yl_cid lib)).
Proof.
  intros I Hs. destruct st as [c dk]. unfold cstep, op_cache, op_steps. cbn [fst snd]. unfold put_plan.
  destruct (sget (yl_cid lib) (by_cid c)) as [r|] eqn:Ec.
  - pose proof (proj1 (i_cid _ _ I _ _) Ec) as [-> [s0 Hs0]]. cbn [fst] in *.
    destruct (kget (key_of s) (by_info c)) as [r|] eqn:Ek.
    + cbn [fst snd]. split; [|reflexivity]. cbn [do_steps fold_left].
      pose proof (proj1 (i_info _ _ I _ _) Ek) as (cid & -> & Hh). pose proof (settled_last _ _ _ _ _ Hs Hh) as <-.
      apply inv_same; [exact I|]. intros s' c'. rewrite holds_put_snoc. split; [|auto]. intros [H|[H <-]]; [exact H|].
      apply (holds_key _ s); [congruence|exact Hh].
    + assert (Hno : forall cid, ~ holds ops s cid).
      { intros cid H. assert (X : kget (key_of s) (by_info c) = Some (YRef cid cid)) by (apply (i_info _ _ I); eauto). congruence. }
      destruct (sget (yl_cid lib) dk) as [e|] eqn:Ee; [|apply (i_dirs _ _ I) in Ee; cbn [fst] in Ee; congruence].
      destruct (i_entry _ _ I _ _ Ee) as (lib0 & sch0 & subs & [s1 A] & B & C & D).
      destruct (append_result dk (yl_cid lib) subs s e Ee) as [P1 P2].
      { subst e. reflexivity. }
      { intros s' H1 H2. apply (Hno (yl_cid lib)). apply D. eauto. }
      rewrite P1. cbn [fst snd]. split; [|reflexivity]. rewrite P2.
      constructor; cbn [fst snd index_sub by_cid by_info by_id].
      * intros cid r. rewrite (i_cid _ _ I). cbn [fst]. split; intros [X [s' Y]]; (split; [exact X|]).
        -- exists s'. apply holds_put_snoc. auto.
        -- apply holds_put_snoc in Y as [Y|[Y1 Y2]]; [eauto|]. subst cid. exists s0. exact Hs0.
      * intros s' r. rewrite kget_kset. destruct (skey_eqb_spec (key_of s') (key_of s)) as [E|E].
        -- split.
           ++ intros X. injection X as <-. exists (yl_cid lib). split; [reflexivity|]. apply holds_put_snoc. auto.
           ++ intros (cid & -> & X). apply holds_put_snoc in X as [X|[_ <-]]; [|reflexivity]. exfalso. apply (Hno cid). exact (holds_key _ _ _ _ E X).
        -- rewrite (i_info _ _ I s'). split; intros (cid & X & Y); exists cid; (split; [exact X|]).
           ++ apply holds_put_snoc. auto.
           ++ apply holds_put_snoc in Y as [Y|[Y _]]; [exact Y|congruence].
      * apply (NoDup_mset _ seqb_spec). apply (i_nodup _ _ I).
      * apply (NoDup_mset _ skey_eqb_spec). apply (i_nodup2 _ _ I).
      * apply (NoDup_mset _ id_eqb_spec). apply (i_nodup3 _ _ I).
      * intros d. rewrite sget_sset. destruct (String.eqb_spec d (yl_cid lib)) as [->|E].
        -- split; intros X; [discriminate X|congruence].
        -- apply (i_dirs _ _ I).
      * intros d e'. rewrite sget_sset. destruct (String.eqb_spec d (yl_cid lib)) as [->|E].
        -- intros X. injection X as <-. exists lib0, sch0, (subs ++ [s]). split; [exists s1; apply in_or_app; auto|].
           split; [subst e; reflexivity|]. split; [exact C|]. intros s'. rewrite holds_put_snoc, D. split.
           ++ intros [(s2 & X & Y)|[X _]]; [exists s2; split; [apply in_or_app; auto|exact Y]|]. exists s. split; [apply in_or_app; right; left; reflexivity|congruence].
           ++ intros (s2 & X & Y). apply in_app_or in X as [X|[<-|[]]]; [left; eauto|right; split; congruence].
        -- intros X. destruct (i_entry _ _ I _ _ X) as (lib1 & sch1 & subs1 & [s2 A1] & B1 & C1 & D1). exists lib1, sch1, subs1.
           split; [exists s2; apply in_or_app; auto|]. split; [exact B1|]. split; [exact C1|]. intros s'. rewrite holds_put_snoc, D1.
           split; [intros [Y|[_ Y]]; [exact Y|congruence]|auto].
  - assert (Ed : sget (yl_cid lib) dk = None) by (apply (i_dirs _ _ I); exact Ec).
    assert (Hno : forall s', ~ holds ops s' (yl_cid lib)).
    { intros s' H. assert (X : sget (yl_cid lib) (by_cid c) = Some (YRef (yl_cid lib) (yl_cid lib))) by (apply (i_cid _ _ I); eauto). congruence. }
    assert (Hno2 : forall cid, ~ holds ops s cid).
    { intros cid H. pose proof (settled_last _ _ _ _ _ Hs H) as X. subst cid. exact (Hno s H). }
    destruct (save_fresh dk (yl_cid lib) lib sch [s] Ed eq_refl) as [P1 P2].
    destruct (save_plan dk (yl_cid lib) lib sch [s]) as [xs ok]. cbn [fst snd] in P1, P2. subst ok. cbn [fst snd]. split; [|reflexivity]. rewrite P2.
    constructor; cbn [fst snd by_cid by_info by_id].
    + intros cid r. rewrite sget_sset. destruct (String.eqb_spec cid (yl_cid lib)) as [->|E].
      * split; [intros X; injection X as <-; split; [reflexivity|]; exists s; apply holds_put_snoc; auto|]. intros [-> _]. reflexivity.
      * rewrite (i_cid _ _ I). split; intros [X [s' Y]]; (split; [exact X|]); exists s'.
        -- apply holds_put_snoc. auto.
        -- apply holds_put_snoc in Y as [Y|[_ Y]]; [exact Y|congruence].
    + intros s' r. rewrite kget_kset. destruct (skey_eqb_spec (key_of s') (key_of s)) as [E|E].
      * split.
        -- intros X. injection X as <-. exists (yl_cid lib). split; [reflexivity|]. apply holds_put_snoc. auto.
        -- intros (cid & -> & X). apply holds_put_snoc in X as [X|[_ <-]]; [|reflexivity]. exfalso. apply (Hno2 cid). exact (holds_key _ _ _ _ E X).
      * rewrite (i_info _ _ I s'). split; intros (cid & X & Y); exists cid; (split; [exact X|]).
        -- apply holds_put_snoc. auto.
        -- apply holds_put_snoc in Y as [Y|[Y _]]; [exact Y|congruence].
    + apply (NoDup_mset _ seqb_spec). apply (i_nodup _ _ I).
    + apply (NoDup_mset _ skey_eqb_spec). apply (i_nodup2 _ _ I).
    + apply (NoDup_mset _ id_eqb_spec). apply (i_nodup3 _ _ I).
    + intros d. rewrite !sget_sset. destruct (String.eqb_spec d (yl_cid lib)) as [->|E]; [split; intros X; discriminate X|apply (i_dirs _ _ I)].
    + intros d e'. rewrite sget_sset. destruct (String.eqb_spec d (yl_cid lib)) as [->|E].
      * intros X. injection X as <-. exists lib, sch, [s]. split; [exists s; apply in_or_app; right; left; reflexivity|].
        split; [reflexivity|]. split; [reflexivity|]. intros s'. rewrite holds_put_snoc. split.
        -- intros [X|[X _]]; [exfalso; exact (Hno s' X)|]. exists s. split; [left; reflexivity|congruence].
        -- intros (s2 & [<-|[]] & Y). right. split; congruence.
      * intros X. destruct (i_entry _ _ I _ _ X) as (lib1 & sch1 & subs1 & [s2 A1] & B1 & C1 & D1). exists lib1, sch1, subs1.
        split; [exists s2; apply in_or_app; auto|]. split; [exact B1|]. split; [exact C1|]. intros s'. rewrite holds_put_snoc, D1.
        split; [intros [Y|[_ Y]]; [exact Y|congruence]|auto].
Qed.

Lemma holds_rmcid ops cid s c : holds (ops ++ [RmCid cid]) s c <-> holds ops s c /\ c <> cid.
Proof.
  rewrite holds_snoc. cbn [removes]. split.
  - intros [[H N]|(a & b & d & E & _)]; [|discriminate E]. split; [exact H|congruence].
  - intros [H N]. left. split; [exact H|congruence].
Qed.
Lemma holds_rminfo ops s0 s c : holds (ops ++ [RmInfo s0]) s c <-> holds ops s c /\ key_of s <> key_of s0.
Proof.
  rewrite holds_snoc. cbn [removes]. rewrite same_key. split.
  - intros [[H N]|(a & b & d & E & _)]; [|discriminate E]. split; [exact H|congruence].
  - intros [H N]. left. split; [exact H|congruence].
Qed.

Lemma inv_rmcid ops st cid order : inv ops st -> inv (ops ++ [RmCid cid]) (cstep order st (RmCid cid)).
Proof.
  intros I. destruct st as [c dk]. unfold cstep, op_cache, op_steps. cbn [fst snd]. unfold rm_cid_plan.
  destruct (sget cid (by_cid c)) as [r|] eqn:Ec.
  2:{ cbn [fst snd do_steps fold_left]. apply inv_same; [exact I|]. intros s c'. rewrite holds_rmcid. split; [tauto|]. intros H. split; [exact H|]. intros ->.
      assert (X : sget cid (by_cid c) = Some (YRef cid cid)) by (apply (i_cid _ _ I); eauto). congruence. }
  pose proof (proj1 (i_cid _ _ I _ _) Ec) as [-> [s0 Hs0]]. cbn [yr_dir].
  destruct (sget cid dk) as [e|] eqn:Ee; [|apply (i_dirs _ _ I) in Ee; cbn [fst] in Ee; congruence].
  destruct (i_entry _ _ I _ _ Ee) as (lib0 & sch0 & subs & [s1 A] & B & C & D). rewrite B. cbn [en_lib fst snd].
  change (do_steps dk (RmLib cid :: rm_dir_plan order cid)) with (do_steps (do_step dk (RmLib cid)) (rm_dir_plan order cid)).
  rewrite rm_dir_result. cbn [do_step]. rewrite srem_upd.
  constructor; cbn [fst snd by_cid by_info by_id].
  - intros d r. rewrite sget_srem. destruct (String.eqb_spec d cid) as [->|E].
    + split; [intros X; discriminate X|]. intros [_ [s H]]. apply holds_rmcid in H as [_ H]. congruence.
    + rewrite (i_cid _ _ I). split; intros [X [s Y]]; (split; [exact X|]); exists s; [apply holds_rmcid; auto|apply holds_rmcid in Y; tauto].
  - intros s r. unfold kget. rewrite (mget_filter _ skey_eqb_spec) by apply (i_nodup2 _ _ I). cbn [snd].
    destruct (mget skey_eqb (key_of s) (by_info c)) as [r'|] eqn:Ek.
    + pose proof (proj1 (i_info _ _ I s r') Ek) as (c' & -> & Hh). cbn [yr_cid]. destruct (String.eqb_spec c' cid) as [->|E]; cbn [negb].
      * split; [intros X; discriminate X|]. intros (c2 & -> & X). apply holds_rmcid in X as [X Y]. exfalso. apply Y. exact (inv_fun _ _ _ _ _ I X Hh).
      * split; [intros X; injection X as <-; exists c'; split; [reflexivity|apply holds_rmcid; auto]|]. intros (c2 & -> & X). apply holds_rmcid in X as [X Y].
        rewrite (inv_fun _ _ _ _ _ I X Hh). reflexivity.
    + split; [intros X; discriminate X|]. intros (c2 & -> & X). apply holds_rmcid in X as [X Y].
      assert (Z : kget (key_of s) (by_info c) = Some (YRef c2 c2)) by (apply (i_info _ _ I); eauto). unfold kget in Z. congruence.
  - apply (NoDup_mrem _ seqb_spec). apply (i_nodup _ _ I).
  - apply NoDup_filter_keys. apply (i_nodup2 _ _ I).
  - apply NoDup_filter_keys. apply (i_nodup3 _ _ I).
  - intros d. rewrite !sget_srem. destruct (String.eqb_spec d cid) as [->|E]; [split; reflexivity|apply (i_dirs _ _ I)].
  - intros d e'. rewrite sget_srem. destruct (String.eqb_spec d cid) as [->|E]; [intros X; discriminate X|].
    intros X. destruct (i_entry _ _ I _ _ X) as (lib1 & sch1 & subs1 & [s2 A1] & B1 & C1 & D1). exists lib1, sch1, subs1.
    split; [exists s2; apply in_or_app; auto|]. split; [exact B1|]. split; [exact C1|]. intros s'. rewrite holds_rmcid, D1. tauto.
Qed.

Lemma sget_in_krem (k : skey) (m : list (skey * yref)) k2 v : In (k2, v) (krem k m) -> NoDup (mkeys m) -> k2 <> k /\ kget k2 m = Some v.
Proof.
  intros H Hn. assert (E : mget skey_eqb k2 (krem k m) = Some v) by (apply (In_mget _ skey_eqb_spec); [apply (NoDup_mrem _ skey_eqb_spec); exact Hn|exact H]).
  unfold krem in E. rewrite (mget_mrem _ skey_eqb_spec) in E. destruct (skey_eqb_spec k2 k); [discriminate E|]. auto.
Qed.
Lemma key_sinfo (k : skey) : exists s, key_of s = k.
Proof. destruct k as [[[ip id] rest] cid]. exists (SInfo ip id rest cid 0). reflexivity. Qed.

Lemma inv_rminfo ops st s0 order : inv ops st -> inv (ops ++ [RmInfo s0]) (cstep order st (RmInfo s0)).
Proof.
  intros I. destruct st as [c dk]. unfold cstep, op_cache, op_steps. cbn [fst snd]. unfold rm_info_plan.
  destruct (kget (key_of s0) (by_info c)) as [r|] eqn:Ek.
  2:{ cbn [fst snd do_steps fold_left]. apply inv_same; [exact I|]. intros s c'. rewrite holds_rminfo. split; [tauto|]. intros H. split; [exact H|]. intros E.
      apply (holds_key _ _ _ _ E) in H. assert (X : kget (key_of s0) (by_info c) = Some (YRef c' c')) by (apply (i_info _ _ I); eauto). congruence. }
  pose proof (proj1 (i_info _ _ I _ _) Ek) as (cid & -> & Hh). cbn [yr_cid].
  assert (Ec : sget cid (by_cid c) = Some (YRef cid cid)) by (apply (i_cid _ _ I); eauto). rewrite Ec.
  destruct (sget cid dk) as [e|] eqn:Ee; [|apply (i_dirs _ _ I) in Ee; cbn [fst] in Ee; congruence].
  destruct (i_entry _ _ I _ _ Ee) as (lib0 & sch0 & subs & [s1 A] & B & C & D).
  destruct (remove_result dk cid subs s0 e Ee) as [P1 P2].
  { subst e. reflexivity. }
  { apply D. exact Hh. }
  assert (Hinfo : forall s r, kget (key_of s) (krem (key_of s0) (by_info c)) = Some r <-> exists cid', r = YRef cid' cid' /\ holds (ops ++ [RmInfo s0]) s cid').
  { intros s r. unfold kget, krem. rewrite (mget_mrem _ skey_eqb_spec). destruct (skey_eqb_spec (key_of s) (key_of s0)) as [E|E].
    - split; [intros X; discriminate X|]. intros (c2 & _ & X). apply holds_rminfo in X as [_ X]. congruence.
    - change (mget skey_eqb (key_of s) (by_info c)) with (kget (key_of s) (by_info c)). rewrite (i_info _ _ I s).
      split; intros (c2 & X & Y); exists c2; (split; [exact X|]); [apply holds_rminfo; auto|apply holds_rminfo in Y; tauto]. }
  destruct (existsb _ (krem (key_of s0) (by_info c))) eqn:Ex.
  - rewrite P1. cbn [fst snd]. rewrite P2. apply existsb_exists in Ex as ([k2 r2] & X1 & X2). cbn [snd] in X2. apply String.eqb_eq in X2.
    apply sget_in_krem in X1 as [X3 X4]; [|apply (i_nodup2 _ _ I)]. destruct (key_sinfo k2) as [s2 <-].
    pose proof (proj1 (i_info _ _ I _ _) X4) as (c2 & -> & Hh2). cbn [yr_cid] in X2. subst c2.
    constructor; cbn [fst snd by_cid by_info by_id].
    + intros d r. rewrite (i_cid _ _ I). split; intros [X [s Y]]; (split; [exact X|]).
      * destruct (skey_eqb_spec (key_of s) (key_of s0)) as [E|E]; [|exists s; apply holds_rminfo; auto].
        exists s2. apply holds_rminfo. split; [|exact X3]. pose proof (holds_key _ _ _ _ E Y) as Z. rewrite (inv_fun _ _ _ _ _ I Z Hh). exact Hh2.
      * exists s. apply holds_rminfo in Y. tauto.
    + exact Hinfo.
    + apply (NoDup_mset _ seqb_spec). apply (i_nodup _ _ I).
    + apply (NoDup_mrem _ skey_eqb_spec). apply (i_nodup2 _ _ I).
    + apply (NoDup_mrem _ id_eqb_spec). apply (i_nodup3 _ _ I).
    + intros d. rewrite sget_sset. destruct (String.eqb_spec d cid) as [->|E]; [split; intros X; [discriminate X|congruence]|apply (i_dirs _ _ I)].
    + intros d e'. rewrite sget_sset. destruct (String.eqb_spec d cid) as [->|E].
      * intros X. injection X as <-. exists lib0, sch0, (filter (fun i => negb (same_sub i s0)) subs).
        split; [exists s1; apply in_or_app; auto|]. split; [subst e; reflexivity|]. split; [exact C|]. intros s. rewrite holds_rminfo, D. split.
        -- intros [(s3 & Y1 & Y2) Y3]. exists s3. split; [|exact Y2]. apply filter_In. split; [exact Y1|]. destruct (same_sub_spec s3 s0); [congruence|reflexivity].
        -- intros (s3 & Y1 & Y2). apply filter_In in Y1 as [Y1 Y3]. split; [eauto|]. destruct (same_sub_spec s3 s0); [discriminate Y3|congruence].
      * intros X. destruct (i_entry _ _ I _ _ X) as (lib1 & sch1 & subs1 & [s3 A1] & B1 & C1 & D1). exists lib1, sch1, subs1.
        split; [exists s3; apply in_or_app; auto|]. split; [exact B1|]. split; [exact C1|]. intros s'. rewrite holds_rminfo, D1.
        split; [tauto|]. intros Y. split; [exact Y|]. intros E2. apply E. apply (inv_fun _ _ s0 _ _ I); [|exact Hh]. apply (holds_key _ s'); [exact E2|]. apply D1. exact Y.
  - assert (Hlast : forall s, holds ops s cid -> key_of s = key_of s0).
    { intros s Hs. destruct (skey_eqb_spec (key_of s) (key_of s0)) as [E|E]; [exact E|exfalso].
      apply Bool.not_true_iff_false in Ex. apply Ex. apply existsb_exists. exists (key_of s, YRef cid cid). cbn [snd yr_cid]. split; [|apply String.eqb_refl].
      apply (mget_In skey_eqb skey_eqb_spec). unfold krem. rewrite (mget_mrem _ skey_eqb_spec). destruct (skey_eqb_spec (key_of s) (key_of s0)); [congruence|].
      apply (i_info _ _ I s). eauto. }
    rewrite P1. cbn [fst snd yr_cid]. rewrite Ee, do_steps_app, P2, rm_dir_result, srem_sset.
    constructor; cbn [fst snd by_cid by_info by_id].
    + intros d r. rewrite sget_srem. destruct (String.eqb_spec d cid) as [->|E].
      * split; [intros X; discriminate X|]. intros [_ [s H]]. apply holds_rminfo in H as [H1 H2]. exfalso. apply H2. exact (Hlast s H1).
      * rewrite (i_cid _ _ I). split; intros [X [s Y]]; (split; [exact X|]); exists s.
        -- apply holds_rminfo. split; [exact Y|]. intros E2. apply E. apply (inv_fun _ _ s0 _ _ I); [|exact Hh]. exact (holds_key _ _ _ _ E2 Y).
        -- apply holds_rminfo in Y. tauto.
    + exact Hinfo.
    + apply (NoDup_mrem _ seqb_spec). apply (i_nodup _ _ I).
    + apply (NoDup_mrem _ skey_eqb_spec). apply (i_nodup2 _ _ I).
    + apply (NoDup_mrem _ id_eqb_spec). apply (i_nodup3 _ _ I).
    + intros d. rewrite !sget_srem. destruct (String.eqb_spec d cid) as [->|E]; [split; reflexivity|apply (i_dirs _ _ I)].
    + intros d e'. rewrite sget_srem. destruct (String.eqb_spec d cid) as [->|E]; [intros X; discriminate X|].
      intros X. destruct (i_entry _ _ I _ _ X) as (lib1 & sch1 & subs1 & [s3 A1] & B1 & C1 & D1). exists lib1, sch1, subs1.
      split; [exists s3; apply in_or_app; auto|]. split; [exact B1|]. split; [exact C1|]. intros s'. rewrite holds_rminfo, D1.
      split; [tauto|]. intros Y. split; [exact Y|]. intros E2. apply E. apply (inv_fun _ _ s0 _ _ I); [|exact Hh]. apply (holds_key _ s'); [exact E2|]. apply D1. exact Y.
Qed.

Lemma crun_snoc order ops o : crun order (ops ++ [o]) = cstep order (crun order ops) o.
Proof. unfold crun. rewrite fold_left_app. reflexivity. Qed.
Lemma inv_run order ops : settled ops -> inv ops (crun order ops).
Proof.
  induction ops as [|o ops IH] using rev_ind; intros Hs; [exact inv_nil|].
  specialize (IH (settled_prefix _ _ Hs)). rewrite crun_snoc. destruct o as [s lib sch|cid|s].
  - now apply inv_put.
  - now apply inv_rmcid.
  - now apply inv_rminfo.
Qed.
