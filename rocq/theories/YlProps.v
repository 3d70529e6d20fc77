(* Properties C129-C133: loading modules and their dependencies from a device,
   and building and extending YANG libraries. *)
From Verif Require Import Base MapLib YlModel YlSpec YlProofs YlBProofs.

Section Load.
Variable checker : name -> option N -> option N -> octets -> octets -> list octets -> list octets -> compat.
Variable set_order : list octets -> list octets.
Variable hash : octets -> N.
Variable device : name -> option N -> option octets.
Variable deps_of : octets -> option (list name * list name).
Notation load := (load checker set_order hash device deps_of).
Notation load_upto := (load_upto checker set_order hash device deps_of).
Notation needed := (needed device deps_of).

(* C129: whatever the library lists and the device answers, cyclic imports
   included, loading ends; more turns than the library has entries change
   nothing. *)
Theorem C129_ends : forall lib seeds, keyed lib ->
  snd (load lib seeds) <> Diverge /\
  forall n, (length (lib_names lib) <= n)%nat -> load_upto n lib seeds = load lib seeds.
Proof.
  intros lib seeds K. split; [exact (load_ends checker set_order hash device deps_of lib seeds _ K (le_n _))|].
  intros n L. exact (load_more checker set_order hash device deps_of lib seeds n K L).
Qed.

(* C129: no name is asked for twice, and every request is for a name and a
   revision the library lists. *)
Theorem C129_each_once : forall lib seeds, keyed lib ->
  NoDup (map fst (fst (load lib seeds))) /\
  forall n r, In (n, r) (fst (load lib seeds)) -> exists e, listed lib e /\ e_name e = n /\ e_rev e = r.
Proof.
  intros lib seeds K. destruct (load_log checker set_order hash device deps_of lib seeds K) as [v [A [B C]]]. split; assumption.
Qed.

(* Refuted: that every listed revision of an import-only module a loaded module
   may import is loaded.  Of two revisions at most one is asked for, so the
   text of the other is not there. *)
Theorem C129_revisions_refuted : forall lib seeds i j, keyed lib ->
  im_name i = im_name j -> im_rev i <> im_rev j ->
  ~ (In (im_name i, im_rev i) (fst (load lib seeds)) /\ In (im_name j, im_rev j) (fst (load lib seeds))).
Proof.
  intros lib seeds i j K E D [I J]. destruct (C129_each_once lib seeds K) as [ND _]. rewrite <- E in J.
  revert ND I J. induction (fst (load lib seeds)) as [|[n r] l IH]; cbn; intros ND I J; [destruct I|].
  apply NoDup_cons_iff in ND. destruct ND as [N1 N2]. destruct I as [I|I], J as [J|J].
  - congruence.
  - apply N1. injection I as -> _. change (im_name i) with (fst (im_name i, im_rev j)). apply in_map. exact J.
  - apply N1. injection J as -> _. change (im_name i) with (fst (im_name i, im_rev i)). apply in_map. exact I.
  - exact (IH N2 I J).
Qed.

(* C130: if loading succeeds, it fetched and returned exactly what the seeds
   need: the closure under import, include, deviation and augmentation. *)
Theorem C130_closure_partial : forall lib seeds lg L, keyed lib -> clear lib -> load lib seeds = (lg, Ok L) ->
  (forall n t, In (n, t) (l_texts L) <-> exists e, needed lib seeds e /\ e_name e = n /\ text_of device e = Some t) /\
  NoDup (map fst (l_texts L)) /\
  (forall m, In m (l_mods L) <-> needed lib seeds (EMod m)) /\
  (forall n l, In (n, l) (l_imps L) <-> exists i, l = [i] /\ im_name i = n /\ needed lib seeds (EImp i)) /\
  (forall n r, In (n, r) lg <-> exists e, needed lib seeds e /\ e_name e = n /\ e_rev e = r).
Proof.
  intros lib seeds lg L K C H. split; [exact (load_texts _ _ _ _ _ _ _ _ _ K C H)|].
  split; [exact (load_names _ _ _ _ _ _ _ _ _ K C H)|]. split; [exact (load_mods _ _ _ _ _ _ _ _ _ K C H)|].
  split; [exact (load_imps _ _ _ _ _ _ _ _ _ K C H)|exact (load_requests _ _ _ _ _ _ _ _ _ K C H)].
Qed.

(* C131: when the seeds are listed, every needed text can be had and read, and
   modules include their own submodules (RFC 7950 5.1), loading succeeds if
   every submodule listed with a needed module is itself needed ... *)
Theorem C131_succeeds_partial : forall lib seeds, keyed lib -> clear lib ->
  seeds_known lib seeds -> all_readable device deps_of lib seeds -> own_includes device deps_of lib seeds ->
  subs_needed device deps_of lib seeds -> exists lg L, load lib seeds = (lg, Ok L).
Proof. intros lib seeds K C SK R O SN. exact (load_ok checker set_order hash device deps_of lib seeds K C R O SK SN). Qed.
(* ... and otherwise the program panics. *)
Theorem C131_unneeded_submodule_refuted : forall lib seeds, keyed lib -> clear lib ->
  seeds_known lib seeds -> all_readable device deps_of lib seeds -> own_includes device deps_of lib seeds ->
  ~ subs_needed device deps_of lib seeds -> snd (load lib seeds) = Panic.
Proof. intros lib seeds K C SK R O SN. exact (load_panics checker set_order hash device deps_of lib seeds K C R O SK SN). Qed.

(* Refuted, for every device: a submodule that only other submodules include
   (YANG 1.0 asks for no more) makes loading fail. *)
Theorem C131_nested_include_refuted : forall lib seeds s, keyed lib -> clear lib ->
  needed lib seeds (ESub s) ->
  (forall e, needed lib seeds e -> includes device deps_of e (sb_name s) -> is_sub e) ->
  forall lg L, load lib seeds <> (lg, Ok L).
Proof.
  intros lib seeds s K C N O lg L H. destruct (load_sub_by_module _ _ _ _ _ _ _ _ _ s K C H N) as [e [A [B D]]].
  exact (B (O e A D)).
Qed.
End Load.
Print Assumptions C129_ends.
Print Assumptions C129_each_once.
Print Assumptions C129_revisions_refuted.
Print Assumptions C130_closure_partial.
Print Assumptions C131_succeeds_partial.
Print Assumptions C131_unneeded_submodule_refuted.
Print Assumptions C131_nested_include_refuted.

(* C130: the result does not depend on the compatibility checker nor on the
   order in which sets are walked. *)
Theorem C130_checker_irrelevant : forall c1 c2 o1 o2 hash device deps_of lib seeds, keyed lib -> clear lib ->
  load c1 o1 hash device deps_of lib seeds = load c2 o2 hash device deps_of lib seeds.
Proof. intros c1 c2 o1 o2 hash device deps_of lib seeds K C. apply load_indep; assumption. Qed.
Print Assumptions C130_checker_irrelevant.

(* C132: a library that could be turned into a builder, extended by any number
   of further libraries, can always be built. *)
Definition extends checker set_order (l : list (library * list (name * octets))) (b : builder) : builder * lres unit :=
  bfold (fun x b => extend checker set_order (fst x) (snd x) b) l b.
Theorem C132_builds : forall checker set_order hash lib texts more b b',
  into_builder checker set_order lib texts = (b, Ok tt) -> extends checker set_order more b = (b', Ok tt) ->
  exists L, build hash b' = Ok L.
Proof.
  intros checker set_order hash lib texts more b b' H E. apply whole_build.
  refine (bfold_inv whole _ _ more b b' (into_whole _ _ _ _ _ H) E).
  intros x c c' W X. exact (extend_whole _ _ _ _ _ _ W X).
Qed.
Print Assumptions C132_builds.
(* C132: after a module was added by an extension, its features are those the
   extending library selects. *)
Theorem C132_features : forall checker set_order m texts b b', (forall l f, In f (set_order l) <-> In f l) ->
  extend checker set_order [MSet [m] []] texts b = (b', Ok tt) ->
  exists m', get_mod (md_name m) (b_mods b') = Some m' /\ forall f, In f (md_feats m') <-> In f (md_feats m).
Proof. intros checker set_order m texts b b' O H. exact (extend_feats checker set_order m texts b b' O H). Qed.
Print Assumptions C132_features.
(* Refuted: that a refused extension leaves the builder as it was.  The features
   are replaced before the module is refused. *)
Theorem C132_refused_extension_refuted : forall checker set_order m texts b old t,
  get_mod (md_name m) (b_mods b) = Some old -> mget N.eqb (md_name m) texts = Some t ->
  checker (md_name m) (md_rev old) (md_rev m) (text_or b (md_name m) t) t (md_feats m) (md_feats m) = Incompatible ->
  exists b', extend checker set_order [MSet [m] []] texts b = (b', Err (VersionConflict (md_name m))) /\
    exists m', get_mod (md_name m) (b_mods b') = Some m' /\ md_feats m' = md_feats m.
Proof.
  intros checker set_order m texts b old t E T I. destruct (extend_conflict checker set_order m texts b old t E T I) as [b' [A B]].
  exists b'. split; [exact A|]. exists (set_feats (md_feats m) old). split; [exact B|reflexivity].
Qed.
Print Assumptions C132_refused_extension_refuted.
(* Refuted: that every library can be turned into a builder.  One that lists two
   revisions of an import-only module cannot, whatever the checker says. *)
Theorem C132_two_revisions_refuted : forall checker set_order lib texts i j,
  has_import lib i -> has_import lib j -> im_name i = im_name j -> im_rev i <> im_rev j ->
  forall b, into_builder checker set_order lib texts <> (b, Ok tt).
Proof.
  intros checker set_order lib texts i j I J E D b H. exact (D (into_one_revision checker set_order (fun _ => 0) lib texts b i j H I J E)).
Qed.
Print Assumptions C132_two_revisions_refuted.
(* Refuted: that an extension brings in every import-only module it lists.  Of
   the revisions listed under a name only the first is looked at. *)
Theorem C132_later_revisions_refuted : forall checker set_order texts lib lib' b,
  Forall2 (fun s s' => ms_mods s = ms_mods s' /\
           Forall2 (fun x y => hd_error (snd x) = hd_error (snd y)) (ms_imps s) (ms_imps s')) lib lib' ->
  extend checker set_order lib texts b = extend checker set_order lib' texts b.
Proof.
  intros checker set_order texts lib lib' b F. unfold extend. revert b. induction F as [|s s' r r' [M F1] _ IH]; intros b; [reflexivity|].
  cbn [bfold]. rewrite <- M.
  assert (E : firsts (ms_imps s) = firsts (ms_imps s')).
  { clear -F1. induction F1 as [|x y l l' E _ IH]; [reflexivity|]. unfold firsts in *. cbn [flat_map]. rewrite IH. f_equal.
    destruct (snd x), (snd y); cbn in E; congruence. }
  rewrite <- E. destruct (bfold (extend_module checker set_order texts) (ms_mods s) b) as [b1 [u|e| |]]; cbn [bbind]; try reflexivity.
  destruct (bfold (extend_import checker texts) (firsts (ms_imps s)) b1) as [b2 [u2|e| |]]; cbn [bbind]; try reflexivity. apply IH.
Qed.
Print Assumptions C132_later_revisions_refuted.

(* C133, refuted: that libraries with the same content id are the same.  The id
   does not see revisions, deviations, augmentations, submodule revisions, nor
   where one feature ends and the next begins. *)
Theorem C133_identifies_refuted : forall hash mods mods' imps texts subs subs' L,
  Forall2 (fun m m' => md_name m = md_name m' /\ map sb_name (md_subs m) = map sb_name (md_subs m') /\
                       concat (md_feats m) = concat (md_feats m')) mods mods' ->
  build hash (Bld mods imps texts subs) = Ok L ->
  exists L', build hash (Bld mods' imps texts subs') = Ok L' /\ l_cid L' = l_cid L /\ l_mods L' = mods'.
Proof. intros hash mods mods' imps texts subs subs' L F H. exact (cid_blind hash mods mods' imps texts subs subs' L F H). Qed.
Print Assumptions C133_identifies_refuted.
(* C133, refuted: that the id depends on the set of modules only.  With an
   injective hash, two modules listed in the other order give another id. *)
Theorem C133_order_refuted : forall hash n n' r r' t t', (forall x y, hash x = hash y -> x = y) ->
  n <> n' -> t ++ t' <> t' ++ t ->
  let a := Mod n r [] [] [] [] in let b := Mod n' r' [] [] [] [] in let texts := [(n, t); (n', t')] in
  exists L L', build hash (Bld [a; b] [] texts []) = Ok L /\ build hash (Bld [b; a] [] texts []) = Ok L' /\
    l_cid L <> l_cid L'.
Proof.
  intros hash n n' r r' t t' HI D T a b texts.
  assert (E1 : must texts n = Ok t) by (unfold must; cbn; rewrite N.eqb_refl; reflexivity).
  assert (E2 : must texts n' = Ok t').
  { unfold must. cbn. destruct (n' =? n) eqn:E; [exfalso; lia|]. rewrite N.eqb_refl. reflexivity. }
  assert (M1 : mod_octets texts a = Ok t).
  { unfold mod_octets, a. cbn [map md_subs md_name md_feats app musts concat]. rewrite E1. cbn. rewrite app_nil_r. reflexivity. }
  assert (M2 : mod_octets texts b = Ok t').
  { unfold mod_octets, b. cbn [map md_subs md_name md_feats app musts concat]. rewrite E2. cbn. rewrite app_nil_r. reflexivity. }
  exists (Loaded (hash (t ++ t')) [a; b] [] texts), (Loaded (hash (t' ++ t)) [b; a] [] texts).
  unfold build. cbn [b_mods b_texts b_imps all_octets flat_map]. rewrite M1, M2. cbn [rbind]. rewrite !app_nil_r. repeat split.
  cbn [l_cid]. intros X. exact (T (HI _ _ X)).
Qed.
Print Assumptions C133_order_refuted.

(* ---- concrete cases ---- *)
(* Module 1 imports 2 and the import-only 3, includes its submodules 10 and 11,
   and is deviated by 4; submodule 10 includes 11; 2 imports 1 again.  Module 5
   is not needed. *)
Definition ex_lib : library :=
  [MSet [Mod 1 (Some 7) [[65]] [Sub 10 None; Sub 11 None] [4] []; Mod 2 None [] [] [] []; Mod 4 None [] [] [] [];
         Mod 5 None [] [] [] []] [(3, [Imp 3 (Some 9) []])]].
Definition ex_device (n : name) (r : option N) : option octets := Some [n].
Definition ex_deps (t : octets) : option (list name * list name) :=
  match t with
  | [1] => Some ([2; 3; 77], [10; 11])
  | [2] => Some ([1], [])
  | [10] => Some ([2], [11])
  | _ => Some ([], [])
  end.
Definition ex_check (n : name) (r r' : option N) (t t' : octets) (f f' : list octets) : compat := Incompatible.
Definition ex_hash (t : octets) : N := fold_left (fun a x => a * 256 + x) t 1.
Notation ex_load := (load ex_check (fun l => l) ex_hash ex_device ex_deps).
Lemma ex_keyed : keyed ex_lib.
Proof. intros s [<-|[]] n l [E|[]]. injection E as <- <-. split; [discriminate|]. intros i [<-|[]]. reflexivity. Qed.
Lemma ex_mods : forall m, has_module ex_lib m -> In m (ms_mods (hd (MSet [] []) ex_lib)).
Proof. intros m [s [[<-|[]] I]]. exact I. Qed.
Lemma ex_listed : forall e, listed ex_lib e ->
  In e [EMod (Mod 1 (Some 7) [[65]] [Sub 10 None; Sub 11 None] [4] []); EMod (Mod 2 None [] [] [] []);
        EMod (Mod 4 None [] [] [] []); EMod (Mod 5 None [] [] [] []); EImp (Imp 3 (Some 9) []); ESub (Sub 10 None); ESub (Sub 11 None)].
Proof.
  intros [m|i|s] L.
  - apply ex_mods in L. cbn in L. destruct L as [<-|[<-|[<-|[<-|[]]]]]; cbn; auto.
  - destruct L as [[s [n [l [[<-|[]] [[E|[]] I]]]]] _]. injection E as <- <-. destruct I as [<-|[]]. cbn. auto 10.
  - destruct L as [[m [M I]] _]. apply ex_mods in M. cbn in M. destruct M as [<-|[<-|[<-|[<-|[]]]]]; cbn in I; try destruct I as [<-|[<-|[]]]; cbn; auto 10; destruct I.
Qed.
Lemma ex_clear : clear ex_lib.
Proof.
  intros e e' L L' E. apply ex_listed in L. apply ex_listed in L'. cbn in L, L'.
  repeat (destruct L as [<-|L]; [repeat (destruct L' as [<-|L']; [first [reflexivity|discriminate E]|]); destruct L'|]). destruct L.
Qed.
Lemma ex_seeds : seeds_known ex_lib [1].
Proof.
  intros n [<-|[]]. exists (EMod (Mod 1 (Some 7) [[65]] [Sub 10 None; Sub 11 None] [4] [])). repeat split; [|intros []].
  eexists. split; [left; reflexivity|left; reflexivity].
Qed.
Lemma ex_all_readable : all_readable ex_device ex_deps ex_lib [1].
Proof.
  intros e N. apply needed_listed in N. apply ex_listed in N. cbn in N.
  repeat (destruct N as [<-|N]; [eexists; eexists; split; reflexivity|]). destruct N.
Qed.
Lemma ex_own : own_includes ex_device ex_deps ex_lib [1].
Proof.
  split; [|split].
  - intros m n N [t [d [T [D I]]]]. apply needed_listed in N. apply ex_listed in N. cbn in N.
    destruct N as [N|[N|[N|[N|N]]]]; [| | | |exfalso; repeat (destruct N as [N|N]; [discriminate N|]); destruct N];
      injection N as <-; injection T as <-; injection D as <-; cbn in I; try destruct I as [].
    + subst n. exists (Sub 10 None). split; [left; reflexivity|reflexivity].
    + destruct H as [<-|[]]. exists (Sub 11 None). split; [right; left; reflexivity|reflexivity].
  - intros m s n N S _ [t [d [T [D I]]]]. apply needed_listed in N. apply ex_listed in N. cbn in N.
    destruct N as [N|[N|[N|[N|N]]]]; [| | | |exfalso; repeat (destruct N as [N|N]; [discriminate N|]); destruct N];
      injection N as <-; cbn in S; try destruct S as [].
    + subst s. injection T as <-. injection D as <-. destruct I as [<-|[]]. exists [1], ([2; 3; 77], [10; 11]). repeat split. right. left. reflexivity.
    + destruct H as [<-|[]]. injection T as <-. injection D as <-. destruct I.
  - intros i n N [t [d [T [D I]]]]. apply needed_listed in N. apply ex_listed in N. cbn in N.
    exfalso. repeat (destruct N as [N|N]; [try discriminate N|]); [|destruct N]. injection N as <-. injection T as <-. injection D as <-. destruct I.
Qed.
Lemma ex_need1 : needed ex_device ex_deps ex_lib [1] (EMod (Mod 1 (Some 7) [[65]] [Sub 10 None; Sub 11 None] [4] [])).
Proof. apply NeedSeed; [eexists; split; [left; reflexivity|left; reflexivity]|intros []|left; reflexivity]. Qed.
Lemma ex_subs : subs_needed ex_device ex_deps ex_lib [1].
Proof.
  intros e s N I. apply needed_listed in N. apply ex_listed in N. cbn in N.
  assert (Q : In s [Sub 10 None; Sub 11 None]) by (repeat (destruct N as [<-|N]; [try exact I; destruct I|]); destruct N).
  exists (ESub s). split; [|reflexivity]. apply (NeedInclude _ _ _ _ _ _ ex_need1); [| |intros []].
  - exists [1], ([2; 3; 77], [10; 11]). repeat split. destruct Q as [<-|[<-|[]]]; [left; reflexivity|right; left; reflexivity].
  - split.
    + eexists. split; [eexists; split; [left; reflexivity|left; reflexivity]|exact Q].
    + intros [m [M E]]. apply ex_mods in M. cbn in M. destruct Q as [<-|[<-|[]]]; repeat (destruct M as [<-|M]; [discriminate E|]); destruct M.
Qed.

Example C129_nonvacuous : keyed ex_lib /\
  fst (ex_load ex_lib [1; 2]) = [(1, Some 7); (2, None); (3, Some 9); (10, None); (11, None); (4, None)] /\
  snd (ex_load ex_lib [1; 99]) = Err (ModuleNotFound 99).
Proof. split; [exact ex_keyed|split; reflexivity]. Qed.
Example C130_nonvacuous : keyed ex_lib /\ clear ex_lib /\ exists lg L, ex_load ex_lib [1] = (lg, Ok L) /\
  map fst (l_texts L) = [1; 2; 3; 10; 11; 4].
Proof. split; [exact ex_keyed|]. split; [exact ex_clear|]. eexists. eexists. split; reflexivity. Qed.
Example C131_nonvacuous : (keyed ex_lib /\ clear ex_lib /\ seeds_known ex_lib [1] /\ all_readable ex_device ex_deps ex_lib [1] /\
    own_includes ex_device ex_deps ex_lib [1] /\ subs_needed ex_device ex_deps ex_lib [1]) /\
  (* a listed submodule nobody includes *)
  snd (ex_load [MSet [Mod 4 None [] [Sub 12 None] [] []] []] [4]) = Panic /\
  (* submodule 11 included by submodule 10 only *)
  snd (load ex_check (fun l => l) ex_hash ex_device (fun t => match t with [1] => Some ([], [10]) | [10] => Some ([], [11]) | _ => Some ([], []) end)
         ex_lib [1]) = Err (ModuleNotFound 10).
Proof.
  split; [exact (conj ex_keyed (conj ex_clear (conj ex_seeds (conj ex_all_readable (conj ex_own ex_subs)))))|]. split; reflexivity.
Qed.
Definition ex_texts : list (name * octets) := [(1, [1]); (2, [2]); (3, [3]); (4, [4]); (5, [5]); (10, [10]); (11, [11])].
Example C132_nonvacuous :
  (exists b b', into_builder ex_check (fun l => l) ex_lib ex_texts = (b, Ok tt) /\
     extends ex_check (fun l => l) [([MSet [Mod 6 None [] [] [] []] []], [(6, [6])])] b = (b', Ok tt) /\
     List.length (b_mods b') = 5%nat) /\
  snd (extends ex_check (fun l => l) [([MSet [Mod 1 None [] [] [] []] []], [(1, [6])])]
         (fst (into_builder ex_check (fun l => l) ex_lib ex_texts))) = Err (VersionConflict 1) /\
  snd (into_builder ex_check (fun l => l) [MSet [] [(3, [Imp 3 None []; Imp 3 (Some 9) []])]] ex_texts) = Err (ModuleNotFound 3).
Proof. split; [eexists; eexists; repeat split; reflexivity|split; reflexivity]. Qed.
Example C133_nonvacuous :
  exists L L', build ex_hash (Bld [Mod 1 (Some 7) [[65; 66]] [] [] []] [] ex_texts []) = Ok L /\
    build ex_hash (Bld [Mod 1 (Some 8) [[65]; [66]] [] [4] []] [] ex_texts []) = Ok L' /\ l_cid L = l_cid L' /\ l_mods L <> l_mods L'.
Proof. eexists. eexists. repeat split. cbn. discriminate. Qed.
