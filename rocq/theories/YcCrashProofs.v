(* Crashes in the middle of a call, and calls that keep the first library. *)
From Verif Require Import Base MapLib YcModel YcSpec YcFileProofs YcProofs YcLoadProofs.
From Coq Require Import String Ascii Permutation.
Open Scope N_scope.

Section Run.
Variables (order : list part) (ops : list cop).
Hypothesis Hset : settled ops.
Notation st := (crun order ops).

Lemma read_back s lib sch : one_library ops -> In (Put s lib sch) ops -> complete lib sch -> get_by_cid (fst st) (yl_cid lib) <> None ->
  read_library (snd st) (YRef (yl_cid lib) (yl_cid lib)) = Some lib /\
  exists r, read_schemas (snd st) (YRef (yl_cid lib) (yl_cid lib)) = Some r /\
  (forall i, names lib i -> sget (yi_name i) r = sget (yi_name i) sch) /\ (forall n, (forall i, names lib i -> yi_name i <> n) -> sget n r = None).
Proof.
  intros H1 Hin Hc Hg. pose proof (inv_run order ops Hset) as I. destruct (sget (yl_cid lib) (snd st)) as [e|] eqn:Ee.
  2: { exfalso. apply Hg. apply (i_dirs _ _ I). exact Ee. }
  destruct (i_entry _ _ I _ _ Ee) as (lib1 & sch1 & subs & [s1 A] & B & C & D). destruct (H1 _ _ _ _ _ _ A Hin C) as [-> ->].
  unfold read_library, read_schemas. cbn [yr_dir]. rewrite Ee. subst e. cbn [en_lib en_mods]. split; [reflexivity|]. exact (load_saved lib sch Hc).
Qed.
Lemma keeps_first s lib sch r l : settled (ops ++ [Put s lib sch]) -> get_by_cid (fst st) (yl_cid lib) = Some r -> read_library (snd st) r = Some l ->
  snd (put_plan (fst st) (snd st) s lib sch) = Some r /\ read_library (snd (crun order (ops ++ [Put s lib sch]))) r = Some l.
Proof.
  intros Hs Hg Hr. pose proof (inv_run order ops Hset) as I. destruct (inv_put ops st s lib sch order I Hs) as [_ P].
  pose proof (proj1 (i_cid _ _ I _ _) Hg) as [-> _]. split; [exact P|]. rewrite crun_snoc. unfold cstep, op_steps, put_plan. cbn [snd].
  unfold get_by_cid in Hg. rewrite Hg. destruct (kget (key_of s) (by_info (fst st))) as [r|] eqn:Ek; [exact Hr|].
  unfold read_library in *. cbn [yr_dir] in *. destruct (sget (yl_cid lib) (snd st)) as [e|] eqn:Ee; [|discriminate Hr].
  destruct (i_entry _ _ I _ _ Ee) as (lib1 & sch1 & subs & [s1 A] & B & C & D).
  destruct (append_result (snd st) (yl_cid lib) subs s e Ee) as [A1 A2].
  { subst e. reflexivity. }
  { intros s' X Y. assert (Z : holds ops s (yl_cid lib)) by (apply D; eauto). assert (W : kget (key_of s) (by_info (fst st)) = Some (YRef (yl_cid lib) (yl_cid lib))) by (apply (i_info _ _ I); eauto). congruence. }
  rewrite A1. cbn [fst snd]. rewrite A2, sget_sset, String.eqb_refl. exact Hr.
Qed.
Lemma no_revision_put s lib sch i : get_by_cid (fst st) (yl_cid lib) = None -> names lib i -> yi_rev i = None ->
  (forall n t, In (n, t) sch -> has_char "@" n = false) -> has_char "@" (yi_name i) = false -> (forall t, ~ In ((yi_name i ++ ".yang")%string, t) sch) ->
  from_disk (snd (crun order (ops ++ [Put s lib sch]))) = None.
Proof.
  intros Hg Hi Hr H1 H2 H3. pose proof (inv_run order ops Hset) as I. rewrite crun_snoc. unfold cstep, op_steps, put_plan. cbn [snd].
  unfold get_by_cid in Hg. rewrite Hg. apply (i_dirs _ _ I) in Hg. destruct (save_fresh (snd st) (yl_cid lib) lib sch [s] Hg eq_refl) as [A1 A2].
  destruct (save_plan (snd st) (yl_cid lib) lib sch [s]) as [xs ok]. cbn [fst snd] in *. subst ok. cbn [fst snd]. rewrite A2. unfold from_disk.
  eapply from_disk_bad; [rewrite sget_sset, String.eqb_refl; reflexivity|]. unfold load_entry. cbn [en_lib en_subs en_mods].
  rewrite (load_no_revision lib sch i Hi Hr H1 H2 H3). reflexivity.
Qed.
Lemma put_cached_crash s lib sch k : get_by_cid (fst st) (yl_cid lib) <> None ->
  from_disk (crashed order st (Put s lib sch) k) = from_disk (snd st) \/ crashed order st (Put s lib sch) k = snd (crun order (ops ++ [Put s lib sch])).
Proof.
  intros Hg. rewrite crun_snoc. unfold crashed, cstep, op_steps, put_plan. cbn [snd]. unfold get_by_cid in Hg. destruct (sget (yl_cid lib) (by_cid (fst st))) as [r|]; [|congruence].
  destruct (kget (key_of s) (by_info (fst st))); [left; cbn [fst]; now rewrite firstn_nil|].
  pose proof (append_atomic (snd st) r s k) as X. cbv zeta in X. destruct (append_plan (snd st) r s) as [xs ok]. cbn [fst] in X. destruct ok; cbn [fst]; destruct X as [X|X]; rewrite ?X; auto.
Qed.
Lemma rm_shared_crash s s' cid k : holds ops s cid -> holds ops s' cid -> ~ same_subscription s s' ->
  from_disk (crashed order st (RmInfo s) k) = from_disk (snd st) \/ crashed order st (RmInfo s) k = snd (crun order (ops ++ [RmInfo s])).
Proof.
  intros H1 H2 Hd. pose proof (inv_run order ops Hset) as I. rewrite crun_snoc. unfold crashed, cstep, op_steps, rm_info_plan. cbn [snd].
  assert (E1 : kget (key_of s) (by_info (fst st)) = Some (YRef cid cid)) by (apply (i_info _ _ I); eauto).
  assert (E2 : kget (key_of s') (by_info (fst st)) = Some (YRef cid cid)) by (apply (i_info _ _ I); eauto). rewrite E1. cbn [yr_cid].
  replace (existsb (fun kr => String.eqb (yr_cid (snd kr)) cid) (krem (key_of s) (by_info (fst st)))) with true.
  - destruct (sget cid (by_cid (fst st))) as [r'|]; [|left; cbn [fst]; now rewrite firstn_nil].
    pose proof (remove_atomic (snd st) r' s k) as X. cbv zeta in X. destruct (remove_sub_plan (snd st) r' s) as [xs ok]. cbn [fst] in *. destruct X as [X|X]; rewrite ?X; auto.
  - symmetry. apply existsb_exists. exists (key_of s', YRef cid cid). cbn [snd yr_cid]. split; [|apply String.eqb_refl].
    apply (mget_In skey_eqb skey_eqb_spec). unfold krem. rewrite (mget_mrem _ skey_eqb_spec). destruct (skey_eqb_spec (key_of s') (key_of s)) as [E|E]; [|exact E2].
    exfalso. apply Hd. apply same_key. congruence.
Qed.
Lemma put_new_crash s lib sch k : get_by_cid (fst st) (yl_cid lib) = None -> (1 <= k <= 4)%nat -> from_disk (crashed order st (Put s lib sch) k) = None.
Proof.
  intros Hg Hk. pose proof (inv_run order ops Hset) as I. unfold crashed, op_steps, put_plan. unfold get_by_cid in Hg. rewrite Hg. apply (i_dirs _ _ I) in Hg.
  pose proof (save_crash (snd st) (yl_cid lib) lib sch [s] k Hg Hk) as X. destruct (save_plan (snd st) (yl_cid lib) lib sch [s]) as [xs ok]. cbn [fst] in X. destruct ok; exact X.
Qed.
Lemma rm_cid_crash s cid k : holds ops s cid -> (1 <= k < List.length (op_steps order st (RmCid cid)))%nat -> from_disk (crashed order st (RmCid cid) k) = None.
Proof.
  intros Hh Hk. pose proof (inv_run order ops Hset) as I. unfold crashed, op_steps, rm_cid_plan in *.
  assert (Ec : sget cid (by_cid (fst st)) = Some (YRef cid cid)) by (apply (i_cid _ _ I); eauto). rewrite Ec in *. cbn [yr_dir] in *.
  destruct (sget cid (snd st)) as [e|] eqn:Ee; [|cbn in Hk; lia]. destruct (i_entry _ _ I _ _ Ee) as (lib1 & sch1 & subs & [s1 A] & B & C & D). subst e. cbn [en_lib] in *. cbn [fst] in *.
  destruct k as [|k]; [lia|]. cbn [firstn List.length] in *. unfold rm_dir_plan in *. rewrite app_length in Hk. cbn [List.length] in Hk. rewrite firstn_app.
  replace (k - List.length (map (rm_part cid) order))%nat with O by lia. cbn [firstn]. rewrite app_nil_r. rewrite firstn_map.
  change (do_steps (snd st) (RmLib cid :: map (rm_part cid) (firstn k order))) with (do_steps (do_step (snd st) (RmLib cid)) (map (rm_part cid) (firstn k order))).
  cbn [do_step]. rewrite (upd_some _ _ _ _ Ee). cbn [en_lib en_subs en_tmp en_mods].
  destruct (rm_parts_prefix cid (firstn k order) (sset cid (Entry None (Some (Full subs)) None (Some (files_of lib1 sch1))) (snd st))
              (Entry None (Some (Full subs)) None (Some (files_of lib1 sch1)))) as (e' & X1 & X2 & _).
  { rewrite sget_sset, String.eqb_refl. reflexivity. }
  exact (lib_gone _ _ _ X1 (X2 eq_refl)).
Qed.
Lemma rm_last_crash s cid : all_parts order -> holds ops s cid -> (forall s', holds ops s' cid -> same_subscription s s') ->
  from_disk (crashed order st (RmInfo s) (List.length (op_steps order st (RmInfo s)) - 1)) = None.
Proof.
  intros Ho Hh Hl. pose proof (inv_run order ops Hset) as I. unfold crashed, op_steps, rm_info_plan.
  assert (E1 : kget (key_of s) (by_info (fst st)) = Some (YRef cid cid)) by (apply (i_info _ _ I); eauto).
  assert (Ec : sget cid (by_cid (fst st)) = Some (YRef cid cid)) by (apply (i_cid _ _ I); eauto). rewrite E1. cbn [yr_cid]. rewrite Ec. cbn [yr_cid].
  destruct (existsb _ (krem (key_of s) (by_info (fst st)))) eqn:Ex.
  { exfalso. apply existsb_exists in Ex as ([k2 r2] & X1 & X2). cbn [snd] in X2. apply String.eqb_eq in X2.
    apply sget_in_krem in X1 as [X3 X4]; [|apply (i_nodup2 _ _ I)]. destruct (key_sinfo k2) as [s2 <-].
    pose proof (proj1 (i_info _ _ I _ _) X4) as (c2 & -> & Hh2). cbn [yr_cid] in X2. subst c2. apply X3. symmetry. apply same_key. exact (Hl _ Hh2). }
  destruct (sget cid (snd st)) as [e|] eqn:Ee; [|apply (i_dirs _ _ I) in Ee; congruence].
  destruct (i_entry _ _ I _ _ Ee) as (lib1 & sch1 & subs & [s1 A] & B & C & D).
  destruct (remove_result (snd st) cid subs s e Ee) as [P1 P2].
  { subst e. reflexivity. }
  { apply D. exact Hh. }
  rewrite P1. cbn [fst]. unfold rm_dir_plan. rewrite app_assoc, app_length. cbn [List.length]. rewrite Nat.add_sub, firstn_app.
  rewrite Nat.sub_diag, firstn_all. cbn [firstn]. rewrite app_nil_r, do_steps_app, P2.
  destruct (rm_parts_prefix cid order (sset cid (Entry (en_lib e) (Some (Full (filter (fun i => negb (same_sub i s)) subs))) None (en_mods e)) (snd st))
     (Entry (en_lib e) (Some (Full (filter (fun i => negb (same_sub i s)) subs))) None (en_mods e))) as (e' & X1 & _ & X3).
  { rewrite sget_sset, String.eqb_refl. reflexivity. }
  apply (lib_gone _ _ _ X1). apply X3. apply (Permutation_in _ (Permutation_sym Ho)). left. reflexivity.
Qed.
End Run.
