(* Properties C115-C125: the YANG library cache and its actor. *)
From Verif Require Import Base MapLib YcModel YcSpec YcFileProofs YcProofs YcLoadProofs YcCrashProofs YcActorProofs YcCheck.
From Coq Require Import String Ascii Permutation.
Open Scope N_scope.

(* ---- C115: what was put is found, what was removed is not ---- *)
Theorem C115_lookups : forall order ops, settled ops ->
  (forall s r, get_by_info (fst (crun order ops)) s = Some r <-> exists cid, r = YRef cid cid /\ holds ops s cid) /\
  (forall cid r, get_by_cid (fst (crun order ops)) cid = Some r <-> r = YRef cid cid /\ exists s, holds ops s cid).
Proof. intros order ops H. pose proof (inv_run order ops H) as I. split; [exact (i_info _ _ I)|exact (i_cid _ _ I)]. Qed.
Print Assumptions C115_lookups.
Theorem C115_contents_partial : forall order ops s lib sch, settled ops -> one_library ops -> In (Put s lib sch) ops -> complete lib sch ->
  get_by_cid (fst (crun order ops)) (yl_cid lib) <> None ->
  read_library (snd (crun order ops)) (YRef (yl_cid lib) (yl_cid lib)) = Some lib /\
  exists r, read_schemas (snd (crun order ops)) (YRef (yl_cid lib) (yl_cid lib)) = Some r /\
  (forall i, names lib i -> sget (yi_name i) r = sget (yi_name i) sch) /\ (forall n, (forall i, names lib i -> yi_name i <> n) -> sget n r = None).
Proof. intros. eapply read_back; eassumption. Qed.
Print Assumptions C115_contents_partial.
(* A second library with a content id in use is accepted, and the first is what
   the caller gets. *)
Theorem C115_other_library_refuted : forall order ops s lib sch r l, settled (ops ++ [Put s lib sch]) ->
  get_by_cid (fst (crun order ops)) (yl_cid lib) = Some r -> read_library (snd (crun order ops)) r = Some l -> l <> lib ->
  snd (put_plan (fst (crun order ops)) (snd (crun order ops)) s lib sch) = Some r /\
  read_library (snd (crun order (ops ++ [Put s lib sch]))) r <> Some lib.
Proof.
  intros order ops s lib sch r l Hs Hg Hr Hd. destruct (keeps_first order ops (settled_prefix _ _ Hs) s lib sch r l Hs Hg Hr) as [A B].
  split; [exact A|]. rewrite B. congruence.
Qed.
Print Assumptions C115_other_library_refuted.

(* ---- C116: a restart finds the same cache ---- *)
Theorem C116_reload_partial : forall order ops dk, settled ops -> all_complete ops -> Permutation (snd (crun order ops)) dk ->
  exists c, from_disk dk = Some c /\ same_answers c (fst (crun order ops)) /\ (ids_distinct ops -> finds_by_id ops c).
Proof. intros order ops dk H1 H2 H3. exact (reload order ops H1 H2 dk H3). Qed.
Print Assumptions C116_reload_partial.
(* One library with a module that has no revision: nothing can be loaded. *)
Theorem C116_no_revision_refuted : forall order ops s lib sch i, settled ops -> get_by_cid (fst (crun order ops)) (yl_cid lib) = None ->
  names lib i -> yi_rev i = None -> (forall n t, In (n, t) sch -> has_char "@" n = false) -> has_char "@" (yi_name i) = false ->
  (forall t, ~ In ((yi_name i ++ ".yang")%string, t) sch) ->
  from_disk (snd (crun order (ops ++ [Put s lib sch]))) = None.
Proof. intros. eapply no_revision_put; eassumption. Qed.
Print Assumptions C116_no_revision_refuted.
Notation yc_item n r := (YItem n%string (Some r%string)).
Definition yc_lib1 := YLib "c1" [YSet [YModule (yc_item "ietf" "2020-01-01") [yc_item "ietf-sub" "2020-01-02"]] [("base"%string, [YModule (yc_item "base" "2019-01-01") []])]] 0.
Definition yc_sch1 : list (string * string) := [("ietf", "module ietf"); ("ietf-sub", "submodule"); ("base", "module base")]%string.
Definition yc_lib2 := YLib "c2" [YSet [YModule (yc_item "acme" "2021-01-01") []] []] 0.
Definition yc_sch2 : list (string * string) := [("acme", "module acme")]%string.
Definition yc_s1 := SInfo 1 10 0 "c1" 7.
Definition yc_s2 := SInfo 1 11 0 "c1" 7.
Definition yc_s3 := SInfo 2 10 0 "c2" 8.
Definition yc_order := [PartMods; PartTmp; PartLib; PartSubs].
(* Two revisions of an import-only module; a submodule of an import-only module. *)
Theorem C116_imports_refuted :
  let two := YLib "c" [YSet [] [("base"%string, [YModule (yc_item "base" "1") []; YModule (yc_item "base" "2") []])]] 0 in
  let sub := YLib "c" [YSet [] [("base"%string, [YModule (yc_item "base" "1") [yc_item "part" "1"]])]] 0 in
  from_disk (snd (crun yc_order [Put yc_s1 two [("base", "text")%string]])) = None /\
  from_disk (snd (crun yc_order [Put yc_s1 sub [("base", "text"); ("part", "text")]%string])) = None.
Proof. split; reflexivity. Qed.
Print Assumptions C116_imports_refuted.
(* A subscription that moved to another library: after a restart it has the one
   that happens to be listed last. *)
Theorem C116_moved_refuted : exists ops dk1 dk2 c1 c2, all_complete ops /\ Permutation (snd (crun yc_order ops)) dk1 /\ Permutation (snd (crun yc_order ops)) dk2 /\
  from_disk dk1 = Some c1 /\ from_disk dk2 = Some c2 /\ get_by_info c1 yc_s1 = Some (YRef "c1" "c1") /\ get_by_info c2 yc_s1 = Some (YRef "c2" "c2").
Proof.
  exists [Put yc_s1 yc_lib1 yc_sch1; Put yc_s1 yc_lib2 yc_sch2]. set (dk := snd _). exists (rev dk), dk. do 2 eexists.
  split; [|split; [apply Permutation_rev|split; [apply Permutation_refl|repeat split; reflexivity]]].
  apply all_complete_check. reflexivity.
Qed.
Print Assumptions C116_moved_refuted.

(* ---- C117: a subscription is found by peer and id ---- *)
Theorem C117_by_id_partial : forall order ops, settled ops -> ids_distinct ops -> own_cids ops -> finds_by_id ops (fst (crun order ops)).
Proof. intros order ops H1 H2 H3. exact (finds_run order ops H1 H2 H3). Qed.
Print Assumptions C117_by_id_partial.
(* The peer replaced subscription 10; removing the old one hides the new one. *)
Definition yc_s1' := SInfo 1 10 5 "c2" 7.
Theorem C117_replaced_refuted : exists ops, settled ops /\ own_cids ops /\ holds ops yc_s1' "c2" /\ get_by_id (fst (crun yc_order ops)) 1 10 = None.
Proof.
  exists [Put yc_s1 yc_lib1 yc_sch1; Put yc_s1' yc_lib2 yc_sch2; RmInfo yc_s1]. split; [apply settled_check; reflexivity|]. split; [apply own_check; reflexivity|].
  split; [|reflexivity]. exists [Put yc_s1 yc_lib1 yc_sch1], yc_s1', yc_lib2, yc_sch2, [RmInfo yc_s1]. split; [reflexivity|]. split; [repeat split|]. split; [reflexivity|].
  intros o [<-|[]] (_ & _ & X & _). discriminate X.
Qed.
Print Assumptions C117_replaced_refuted.
(* The router announced another content id: removing the library leaves the
   subscription behind without it. *)
Theorem C117_stale_refuted : exists ops s, settled ops /\ ids_distinct ops /\ (forall s cid, ~ holds ops s cid) /\ get_by_id (fst (crun yc_order ops)) 1 10 = Some (s, None).
Proof.
  exists [Put yc_s1 yc_lib2 yc_sch2; RmCid "c2"], yc_s1. split; [apply settled_check; reflexivity|]. split; [apply ids_check; reflexivity|]. split; [|reflexivity].
  intros s cid H. change [Put yc_s1 yc_lib2 yc_sch2; RmCid "c2"] with ([Put yc_s1 yc_lib2 yc_sch2] ++ [RmCid "c2"]) in H. apply holds_rmcid in H as [H1 H2].
  apply holds_in in H1 as (s' & lib & sch & [A|[]] & _ & B). injection A as <- <- <-. cbn in B. congruence.
Qed.
Print Assumptions C117_stale_refuted.

(* ---- C118: stopping at any point ---- *)
(* Adding a subscription to a library, or removing one that is not the last,
   happens or does not. *)
Theorem C118_shared_partial : forall order ops k, settled ops ->
  (forall s lib sch, get_by_cid (fst (crun order ops)) (yl_cid lib) <> None ->
     from_disk (crashed order (crun order ops) (Put s lib sch) k) = from_disk (snd (crun order ops)) \/
     crashed order (crun order ops) (Put s lib sch) k = snd (crun order (ops ++ [Put s lib sch]))) /\
  (forall s s' cid, holds ops s cid -> holds ops s' cid -> ~ same_subscription s s' ->
     from_disk (crashed order (crun order ops) (RmInfo s) k) = from_disk (snd (crun order ops)) \/
     crashed order (crun order ops) (RmInfo s) k = snd (crun order (ops ++ [RmInfo s]))).
Proof. intros order ops k H. split; [intros; now apply put_cached_crash|]. intros s s' cid A B C. eapply rm_shared_crash; eassumption. Qed.
Print Assumptions C118_shared_partial.
(* Storing a new library, removing a library or the last subscription: a stop in
   between leaves a cache directory that cannot be loaded at all. *)
Theorem C118_put_refuted : forall order ops s lib sch k, settled ops -> get_by_cid (fst (crun order ops)) (yl_cid lib) = None -> (1 <= k <= 4)%nat ->
  from_disk (crashed order (crun order ops) (Put s lib sch) k) = None.
Proof. intros. now apply put_new_crash. Qed.
Print Assumptions C118_put_refuted.
Theorem C118_remove_refuted : forall order ops s cid k, settled ops -> holds ops s cid -> (1 <= k < List.length (op_steps order (crun order ops) (RmCid cid)))%nat ->
  from_disk (crashed order (crun order ops) (RmCid cid) k) = None.
Proof. intros. eapply rm_cid_crash; eassumption. Qed.
Print Assumptions C118_remove_refuted.
Theorem C118_remove_last_refuted : forall order ops s cid, all_parts order -> settled ops -> holds ops s cid -> (forall s', holds ops s' cid -> same_subscription s s') ->
  from_disk (crashed order (crun order ops) (RmInfo s) (List.length (op_steps order (crun order ops) (RmInfo s)) - 1)) = None.
Proof. intros. eapply rm_last_crash; eassumption. Qed.
Print Assumptions C118_remove_last_refuted.
(* Later, a stop leaves an empty schema that is loaded without complaint. *)
Theorem C118_empty_schema_refuted : exists k c, from_disk (crashed yc_order (crun yc_order []) (Put yc_s3 yc_lib2 yc_sch2) k) = Some c /\
  read_schemas (crashed yc_order (crun yc_order []) (Put yc_s3 yc_lib2 yc_sch2) k) (YRef "c2" "c2") = Some [("acme", "")]%string.
Proof. exists 7%nat. eexists. split; reflexivity. Qed.
Print Assumptions C118_empty_schema_refuted.

(* ---- C119: libraries are stored below the root ---- *)
Theorem C119_below_root_partial : forall root cid, plain cid -> entry_dir root cid = root ++ [cid].
Proof. exact entry_dir_plain. Qed.
Print Assumptions C119_below_root_partial.
Theorem C119_anywhere_refuted : forall root ps, Forall plain ps -> ps <> [] -> exists cid, entry_dir root cid = ps.
Proof. intros root ps H1 H2. exists (join ps). now apply entry_dir_any. Qed.
Print Assumptions C119_anywhere_refuted.

(* ---- C120: nobody is answered twice or unasked ---- *)
Theorem C120_once : forall evs, NoDup (flat_map asks evs) ->
  NoDup (answered (snd (arun new_actor evs))) /\ incl (answered (snd (arun new_actor evs))) (flat_map asks evs).
Proof. exact once. Qed.
Print Assumptions C120_once.

(* ---- C121: nobody is forgotten ---- *)
Theorem C121_not_forgotten : forall evs n, Forall healthy evs -> Exists (stream_ask n) evs ->
  In n (answered (snd (arun new_actor evs))) \/
  exists w, In w (a_workers (fst (arun new_actor evs))) /\ In n (pending_of (fst (arun new_actor evs)) (worker_key w)).
Proof. exact arun_not_lost. Qed.
Print Assumptions C121_not_forgotten.
(* When the fetches in flight have ended, well or not, everybody is answered. *)
Theorem C121_all_answered : forall evs os n, Forall healthy evs -> Forall (fun o => o <> Panicked) os ->
  List.length os = List.length (a_workers (fst (arun new_actor evs))) -> Exists (stream_ask n) evs ->
  In n (answered (snd (arun new_actor (evs ++ map (Done 0) os)))).
Proof.
  intros evs os n H Ho El Hn. assert (H' : Forall healthy (evs ++ map (Done 0) os)).
  { apply Forall_app. split; [exact H|]. rewrite Forall_map. eapply Forall_impl; [|exact Ho]. intros [] X; cbn; auto. }
  assert (Hn' : Exists (stream_ask n) (evs ++ map (Done 0) os)) by (apply Exists_app; auto).
  destruct (arun_not_lost _ n H' Hn') as [X|(w & X & _)]; [exact X|]. exfalso. rewrite arun_app in X. cbn [fst] in X. rewrite drain in X by (symmetry; exact El). exact X.
Qed.
Print Assumptions C121_all_answered.

(* ---- C122: one fetch at a time ---- *)
Theorem C122_one_fetch : forall evs, Forall streaming evs -> Forall real evs -> NoDup (map worker_key (a_workers (fst (arun new_actor evs)))).
Proof. intros evs H R. exact (s_nodup _ (arun_single evs new_actor single_new H R)). Qed.
Print Assumptions C122_one_fetch.

(* ---- C123: one-shot lookups ---- *)
Theorem C123_by_info_partial : forall a n s o, exists r, In (n, s, r) (snd (astep a (OneInfo n s o))) /\ r = get_by_info (a_cache (fst (astep a (OneInfo n s o)))) s.
Proof.
  intros a n s o. cbn [astep]. destruct (match get_by_info (a_cache a) s with Some _ => (a, []) | None => worker_result a (WInfo s) (one_outcome o) end) as [a' rs].
  eexists. cbn [fst snd]. split; [apply in_or_app; right; left; reflexivity|reflexivity].
Qed.
Print Assumptions C123_by_info_partial.
(* By id, a caller whose subscription is not cached is never answered, whatever
   the device says and whatever happens later. *)
Theorem C123_by_id_refuted : forall evs1 evs2 n l ip id o, NoDup (flat_map asks (evs1 ++ OneId n l ip id o :: evs2)) ->
  get_by_id (a_cache (fst (arun new_actor evs1))) ip id = None ->
  ~ In n (answered (snd (arun new_actor (evs1 ++ OneId n l ip id o :: evs2)))).
Proof. exact one_id_lost. Qed.
Print Assumptions C123_by_id_refuted.

(* ---- C124: a fetch that failed can be tried again ---- *)
Theorem C124_retry_partial : forall a i n s s', nth_error (a_workers a) i = Some (WInfo s) -> get_by_info (a_cache a) s = None -> same_subscription s' s ->
  In (WInfo s') (a_workers (fst (arun a [Done i Failed; AskInfo n s']))).
Proof.
  intros a i n s s' Ew Em Hs. apply same_key in Hs. cbn [arun astep]. rewrite Ew. cbn [worker_result result_info fst snd a_cache].
  unfold get_by_info in *. rewrite Hs, Em. cbn [fst]. unfold enqueue, pending_of. cbn [worker_key a_pending a_workers]. unfold kget, krem. rewrite Hs, (mget_mrem _ skey_eqb_spec).
  destruct (skey_eqb_spec (key_of s) (key_of s)); [|congruence]. cbn [fst snd a_workers]. apply in_or_app. right. left. reflexivity.
Qed.
Print Assumptions C124_retry_partial.
(* After a panic in the fetch, later lookups of the subscription start no fetch
   and are never answered. *)
Theorem C124_panic_refuted : forall evs1 evs2 i s, Forall by_subscription evs1 -> Forall real evs1 -> Forall by_subscription evs2 ->
  nth_error (a_workers (fst (arun new_actor evs1))) i = Some (WInfo s) -> get_by_info (a_cache (fst (arun new_actor evs1))) s = None ->
  NoDup (flat_map asks (evs1 ++ Done i Panicked :: evs2)) ->
  (forall n s', In (AskInfo n s') evs2 -> same_subscription s' s -> ~ In n (answered (snd (arun new_actor (evs1 ++ Done i Panicked :: evs2))))) /\
  (forall s', In (WInfo s') (a_workers (fst (arun new_actor (evs1 ++ Done i Panicked :: evs2)))) -> ~ same_subscription s' s).
Proof. exact panic_stuck. Qed.
Print Assumptions C124_panic_refuted.

(* ---- C125: an answer is about what was asked ---- *)
Theorem C125_answers : forall evs ev r, NoDup (flat_map asks evs) -> Forall real evs -> In ev evs -> In r (snd (arun new_actor evs)) -> asks ev = [fst (fst r)] ->
  answers ev r /\ forall x, snd r = Some x -> get_by_cid (a_cache (fst (arun new_actor evs))) (yr_cid x) = Some x.
Proof. exact right_answers. Qed.
Print Assumptions C125_answers.

(* ---- the hypotheses are met ---- *)
Definition yc_ops : list cop := [Put yc_s1 yc_lib1 yc_sch1; Put yc_s3 yc_lib2 yc_sch2; Put yc_s2 yc_lib1 yc_sch1; RmCid "c2"; Put yc_s3 yc_lib2 yc_sch2; RmInfo yc_s1].
Example C115_nonvacuous : settled yc_ops /\ one_library yc_ops /\ complete yc_lib1 yc_sch1 /\
  get_by_info (fst (crun yc_order yc_ops)) yc_s1 = None /\ get_by_info (fst (crun yc_order yc_ops)) yc_s2 = Some (YRef "c1" "c1") /\
  get_by_info (fst (crun yc_order yc_ops)) yc_s3 = Some (YRef "c2" "c2") /\
  let other := YLib "c1" [] 9 in settled (yc_ops ++ [Put (SInfo 5 5 5 "c1" 5) other []]) /\ read_library (snd (crun yc_order yc_ops)) (YRef "c1" "c1") = Some yc_lib1 /\ yc_lib1 <> other.
Proof.
  split; [apply settled_check; reflexivity|]. split.
  - intros s1 l1 h1 s2 l2 h2 A B. apply in_puts in A, B. cbn in A, B. intros E.
    repeat (destruct A as [A|A]; [injection A as <- <- <-; repeat (destruct B as [B|B]; [injection B as <- <- <-; first [split; reflexivity|discriminate E]|]); destruct B|]). destruct A.
  - split; [apply complete_check_ok; reflexivity|]. do 3 (split; [reflexivity|]). cbv zeta. split; [apply settled_check; reflexivity|]. split; [reflexivity|discriminate].
Qed.
Example C116_nonvacuous : settled yc_ops /\ all_complete yc_ops /\ ids_distinct yc_ops /\ List.length (snd (crun yc_order yc_ops)) = 2%nat /\
  option_map (fun c => get_by_info c yc_s2) (from_disk (rev (snd (crun yc_order yc_ops)))) = Some (Some (YRef "c1" "c1")) /\
  let bad := YLib "c9" [YSet [YModule (YItem "old" None) []] []] 0 in
  get_by_cid (fst (crun yc_order yc_ops)) "c9" = None /\ from_disk (snd (crun yc_order (yc_ops ++ [Put (SInfo 3 3 3 "c9" 3) bad [("old", "text")%string]]))) = None.
Proof.
  split; [apply settled_check; reflexivity|]. split; [apply all_complete_check; reflexivity|]. split; [apply ids_check; reflexivity|]. split; [reflexivity|].
  split; [vm_compute; reflexivity|]. split; vm_compute; reflexivity.
Qed.
Example C117_nonvacuous : settled yc_ops /\ ids_distinct yc_ops /\ own_cids yc_ops /\ get_by_id (fst (crun yc_order yc_ops)) 2 10 = Some (yc_s3, Some (YRef "c2" "c2")) /\
  get_by_id (fst (crun yc_order yc_ops)) 1 10 = None.
Proof. split; [apply settled_check; reflexivity|]. split; [apply ids_check; reflexivity|]. split; [apply own_check; reflexivity|]. split; reflexivity. Qed.
Example C118_nonvacuous : List.length (op_steps yc_order (crun yc_order yc_ops) (RmCid "c1")) = 6%nat /\
  List.length (op_steps yc_order (crun yc_order yc_ops) (Put yc_s1 yc_lib1 yc_sch1)) = 3%nat /\ List.length (op_steps yc_order (crun yc_order yc_ops) (RmInfo yc_s2)) = 8%nat /\
  all_parts yc_order /\ from_disk (crashed yc_order (crun yc_order yc_ops) (RmInfo yc_s2) 7) = None.
Proof.
  do 3 (split; [reflexivity|]). split; [|reflexivity]. apply Permutation_sym. unfold all_parts, yc_order.
  apply (Permutation_trans (l' := [PartMods; PartLib; PartSubs; PartTmp])); [exact (Permutation_sym (Permutation_cons_append [PartLib; PartSubs; PartTmp] PartMods))|].
  apply perm_skip. exact (Permutation_sym (Permutation_cons_append [PartLib; PartSubs] PartTmp)).
Qed.
Example C119_nonvacuous : entry_dir ["var"; "cache"]%string "c1" = ["var"; "cache"; "c1"]%string /\ plain "c1" /\
  entry_dir ["var"; "cache"]%string "/etc/cron.d" = ["etc"; "cron.d"]%string /\ entry_dir ["var"; "cache"]%string "../../etc" = ["etc"]%string.
Proof. repeat split; try reflexivity; discriminate. Qed.
Definition yc_evs : list aev := [AskInfo 1 yc_s1; AskInfo 2 yc_s1; AskId 3 7 2 10; AskInfo 4 yc_s2; AskCid 5 "c1"; Done 0 (Fetched 0 "c1" yc_lib1 yc_sch1); AskInfo 6 yc_s1].
Example C121_nonvacuous : Forall healthy yc_evs /\ NoDup (flat_map asks yc_evs) /\ Forall streaming yc_evs /\ Forall real yc_evs /\
  answered (snd (arun new_actor yc_evs)) = [5; 1; 2; 6] /\ a_workers (fst (arun new_actor yc_evs)) = [WId 7 2 10; WInfo yc_s2] /\
  answered (snd (arun new_actor (yc_evs ++ map (Done 0) [Fetched 0 "c2" yc_lib2 yc_sch2; Failed]))) = [5; 1; 2; 6; 3; 4].
Proof. repeat split; try reflexivity; repeat constructor; cbn; try discriminate; intuition discriminate. Qed.
Example C123_nonvacuous : NoDup (flat_map asks [AskCid 1 "c"; OneId 2 0 1 10 (Some (Fetched 0 "c1" yc_lib1 yc_sch1)); AskId 3 0 1 10]) /\
  snd (arun new_actor [AskCid 1 "c"; OneId 2 0 1 10 (Some (Fetched 0 "c1" yc_lib1 yc_sch1)); AskId 3 0 1 10]) = [(1, empty_info 0 0 0, None); (3, SInfo 1 10 0 "c1" 0, Some (YRef "c1" "c1"))].
Proof. split; [repeat constructor; cbn; intuition discriminate|reflexivity]. Qed.
Example C124_nonvacuous : let evs := [AskInfo 1 yc_s1; AskInfo 2 yc_s2; AskInfo 3 yc_s1] in Forall by_subscription evs /\ Forall real evs /\
  nth_error (a_workers (fst (arun new_actor evs))) 0 = Some (WInfo yc_s1) /\ get_by_info (a_cache (fst (arun new_actor evs))) yc_s1 = None /\
  snd (arun new_actor (evs ++ Done 0 Panicked :: [AskInfo 4 yc_s1; Done 0 Failed; AskInfo 5 yc_s1])) = [(2, yc_s2, None)].
Proof. cbv zeta. split; [repeat constructor|]. split; [repeat constructor; discriminate|]. repeat split; reflexivity. Qed.
