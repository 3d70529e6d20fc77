(* Properties C134-C136: the dependency graph of a YANG library and its
   registration in a schema registry. *)
From Coq Require Import Permutation Sorted.
From Verif Require Import Base MapLib YlModel YlSpec YlProofs YgModel YgSpec YgProofs.

Section GraphProps.
Variable deps_of : octets -> option (list name * list name).
Notation to_graph := (to_graph deps_of).

(* C134: when a graph is produced, it has every module and every import-only
   module as a node and only listed names, no node and no edge twice, and an edge
   from [b] to [a] exactly when [a] depends on [b]. *)
Theorem C134_exact : forall lib texts fuel g, to_graph lib texts fuel = Ok g ->
  NoDup (g_nodes g) /\ NoDup (g_edges g) /\
  (forall m, has_module lib m -> In (md_name m) (g_nodes g)) /\
  (forall i, has_import lib i -> In (im_name i) (g_nodes g)) /\
  (forall n, In n (g_nodes g) -> is_name lib n) /\
  forall a b, In (b, a) (g_edges g) <-> depends deps_of lib texts a b.
Proof.
  intros lib texts fuel g H. destruct (to_graph_grows _ _ _ _ _ H) as [GN [GE [GD GS]]]. cbn in GN, GE, GD.
  destruct (sets_nodes lib [] (NoDup_nil _)) as [A [_ [B [C D]]]]. fold (lib_nodes lib) in A, B, C, D. rewrite GN.
  repeat split; [exact A|apply GD; constructor|exact B|exact C| | |].
  - intros n I. destruct (D n I) as [[]|Q]. exact Q.
  - intros I. apply GE in I. destruct I as [[]|I]. exact I.
  - intros I. apply GE. right. exact I.
Qed.

(* C134: if the includes among the texts are not circular, the graph (or an
   error, or a panic) is reached: recursion no deeper than the longest chain of
   includes, and any more stack gives the same.  Missing: circular includes, see
   below. *)
Theorem C134_ends_partial : forall lib texts rank fuel, ranked deps_of texts rank ->
  (forall a, In a (map fst texts) -> (rank a < fuel)%nat) ->
  to_graph lib texts fuel <> Diverge /\
  forall fuel', (fuel <= fuel')%nat -> to_graph lib texts fuel' = to_graph lib texts fuel.
Proof.
  intros lib texts rank fuel R F. split; [exact (to_graph_ends deps_of lib texts rank R fuel F)|exact (to_graph_fuel deps_of lib texts rank R fuel F)].
Qed.

(* Refuted: that circular includes are reported.  A module in a set of texts each
   of which includes another one of the set gives no graph at any depth; and a
   module whose submodule includes itself exhausts every stack. *)
Theorem C134_include_cycle_refuted :
  (forall lib texts (P : name -> Prop) m, (forall a, P a -> exists b, P b /\ text_includes deps_of texts a b) -> has_module lib m -> P (md_name m) ->
     forall fuel g, to_graph lib texts fuel <> Ok g) /\
  (forall n s t u, n <> s -> deps_of t = Some ([], [s]) -> deps_of u = Some ([], [s]) ->
     forall fuel, to_graph [MSet [Mod n None [] [Sub s None] [] []] []] [(n, t); (s, u)] fuel = Diverge).
Proof.
  split; [intros lib texts P m C H Q fuel g; exact (cycle_graph deps_of lib texts P C fuel m g H Q)|].
  intros n s t u NE D1 D2 fuel.
  set (lib := [MSet [Mod n None [] [Sub s None] [] []] []]). set (texts := [(n, t); (s, u)]).
  assert (Es : (s =? n) = false) by lia.
  assert (TS : mget N.eqb s texts = Some u) by (unfold texts; cbn; rewrite Es, N.eqb_refl; reflexivity).
  assert (TN : mget N.eqb n texts = Some t) by (unfold texts; cbn; rewrite N.eqb_refl; reflexivity).
  assert (FS : find_submodule lib s = Some (Sub s None)) by (unfold lib, find_submodule, sub_is; cbn; rewrite N.eqb_refl; reflexivity).
  assert (NN : lib_nodes lib = [n; s]).
  { unfold lib, lib_nodes. cbn. unfold set_nodes. cbn. unfold mod_nodes. cbn. unfold add_node. cbn. rewrite Es. reflexivity. }
  assert (LO : forall f g, In s (g_nodes g) -> forall c, add_deps deps_of lib texts f ([], [s]) c g = Diverge).
  { induction f as [|f IH]; intros g I c; [reflexivity|]. cbn [add_deps gfold fst snd rbind]. rewrite FS. unfold in_graph at 1.
    replace (mem s (g_nodes g)) with true by (symmetry; apply mem_in; exact I). rewrite TS, D2.
    rewrite (IH (add_edge (s, c) g)); [reflexivity|rewrite add_edge_nodes; exact I]. }
  unfold YgModel.to_graph.
  unfold lib at 3. cbn [gfold ms_mods ms_imps]. unfold add_module_edges at 1. cbn [md_name]. unfold own_deps, in_graph. cbn [g_nodes].
  rewrite NN. replace (mem n [n; s]) with true by (cbn; rewrite N.eqb_refl; reflexivity). rewrite TN, D1.
  rewrite LO; [reflexivity|cbn; tauto].
Qed.

(* Refuted: that a missing text is an error.  When a module includes a listed
   submodule whose text is not there, the program panics. *)
Theorem C134_missing_text_refuted : forall n s r fs subs t, n <> s -> deps_of t = Some ([], [s]) ->
  forall fuel, to_graph [MSet [Mod n r fs (Sub s None :: subs) [] []] []] [(n, t)] (S fuel) = Panic.
Proof.
  intros n s r fs subs t NE D fuel. unfold YgModel.to_graph.
  set (lib := [MSet [Mod n r fs (Sub s None :: subs) [] []] []]).
  assert (Es : (s =? n) = false) by lia.
  assert (FS : find_submodule lib s = Some (Sub s None)) by (unfold lib, find_submodule, sub_is; cbn; rewrite N.eqb_refl; reflexivity).
  assert (NN : In n (lib_nodes lib) /\ In s (lib_nodes lib)).
  { unfold lib, lib_nodes. cbn. unfold set_nodes. cbn. unfold mod_nodes. cbn.
    replace (add_node [n] s) with [n; s] by (unfold add_node; cbn; rewrite Es; reflexivity).
    destruct (add_nodes (map sb_name subs) [n; s]) as [_ Q]; [repeat constructor; cbn; intuition|]. split; apply Q; left; cbn; tauto. }
  destruct NN as [N1 N2]. unfold lib at 3. cbn [gfold ms_mods ms_imps]. unfold add_module_edges at 1. cbn [md_name]. unfold own_deps, in_graph. cbn [g_nodes].
  replace (mem n (lib_nodes lib)) with true by (symmetry; apply mem_in; exact N1). cbn [mget]. rewrite N.eqb_refl, D.
  cbn [add_deps gfold fst snd rbind]. rewrite FS. unfold in_graph. cbn [g_nodes]. replace (mem s (lib_nodes lib)) with true by (symmetry; apply mem_in; exact N2).
  cbn [mget]. rewrite Es. reflexivity.
Qed.
End GraphProps.

Section RegisterProps.
Variable deps_of : octets -> option (list name * list name).
Variable subject_of : name -> N.
Variable server : history -> call -> option answer.
Variable topo : graph -> option (list name).
Notation register_schema := (register_schema deps_of subject_of server topo).

(* C135: whatever the registry answers, and however the run ends, every schema
   handed over has its module's text and features, and each of its references is
   to something registered before it, under the subject and with the version the
   registry returned. *)
Theorem C135_references : forall lib texts fuel root st x, register_schema fuel lib texts root = (st, x) ->
  forall l1 n s r l2, r_log st = l1 ++ (n, s, r) :: l2 ->
    mget N.eqb n texts = Some (sc_text s) /\
    sc_feats s = match find_module lib n with Some m => md_feats m | None => [] end /\
    forall y, In y (sc_refs s) -> resolved l1 y.
Proof.
  intros lib texts fuel root st x H l1 n s r l2 E.
  destruct (run_sound _ _ _ _ _ _ _ _ _ _ H) as [_ [S _]]. destruct (S _ _ _ _ _ E) as [A [B [_ D]]]. split; [exact A|split; [exact B|exact D]].
Qed.

(* C135: if the order is a topological one and the run succeeds, every node of
   the library was registered once, with references to exactly what it depends
   on, in the order of their names; then the root again, with references to what
   it depends on and to all that nothing depends on. *)
Theorem C135_complete : forall lib texts fuel root st last, (forall g o, topo g = Some o -> is_topo g o) ->
  register_schema fuel lib texts root = (st, Ok last) ->
  exists l s, r_log st = l ++ [(root, s, last)] /\
    NoDup (map e_of l) /\
    (forall m, has_module lib m -> In (md_name m) (map e_of l)) /\
    (forall i, has_import lib i -> In (im_name i) (map e_of l)) /\
    (forall n, In n (map e_of l) -> is_name lib n) /\
    (forall a t r, In (a, t, r) l -> Sorted (fun x y => rf_name x < rf_name y) (sc_refs t) /\
       forall b, In b (ref_names t) <-> depends deps_of lib texts a b) /\
    Sorted (fun x y => rf_name x < rf_name y) (sc_refs s) /\
    forall b, In b (ref_names s) <->
      depends deps_of lib texts root b \/ (In b (map e_of l) /\ forall a, ~ depends deps_of lib texts a b).
Proof.
  intros lib texts fuel root st last TP H. destruct (run_ok _ _ _ _ _ _ _ _ _ _ TP H) as [g [l [s [G [L [P [PS PL]]]]]]].
  destruct (C134_exact _ _ _ _ _ G) as [D1 [D2 [D3 [D4 [D5 D6]]]]]. destruct (run_sound _ _ _ _ _ _ _ _ _ _ H) as [_ [S _]].
  exists l, s. split; [exact L|].
  assert (PI : forall n, In n (map e_of l) <-> In n (g_nodes g)).
  { intros n. split; [exact (Permutation_in n P)|exact (Permutation_in n (Permutation_sym P))]. }
  repeat split.
  - exact (Permutation_NoDup (Permutation_sym P) D1).
  - intros m I. apply PI. exact (D3 m I).
  - intros i I. apply PI. exact (D4 i I).
  - intros n I. apply D5, PI. exact I.
  - apply in_split in H0. destruct H0 as [l1 [l2 E]]. rewrite E in L. rewrite <- app_assoc in L. cbn in L.
    destruct (S _ _ _ _ _ L) as [_ [_ [O _]]]. apply strict_refs; [exact O|].
    refine (Permutation_NoDup (Permutation_sym (PL a t r _)) (sources_nodup g a D2)). rewrite E. apply in_or_app. right. left. reflexivity.
  - intros I. apply D6, sources_in. exact (Permutation_in _ (PL a t r H0) I).
  - intros I. apply (Permutation_in _ (Permutation_sym (PL a t r H0))), sources_in, D6. exact I.
  - destruct (S _ _ _ _ _ L) as [_ [_ [O _]]]. apply strict_refs; [exact O|].
    refine (Permutation_NoDup (Permutation_sym PS) _). apply NoDup_app_intro.
    + exact (sources_nodup g root D2).
    + apply NoDup_filter. exact D1.
    + intros b I J. apply sources_in in I. apply filter_In in J. destruct J as [_ J]. exact (proj1 (no_targets_in g b) J _ I).
  - intros I. apply (Permutation_in _ PS), in_app_or in I. destruct I as [I|I].
    + left. apply D6, sources_in. exact I.
    + right. apply filter_In in I. destruct I as [I J]. split; [apply PI; exact I|]. intros a Q. apply D6 in Q.
      exact (proj1 (no_targets_in g b) J _ Q).
  - intros I. apply (Permutation_in _ (Permutation_sym PS)), in_or_app. destruct I as [I|[I J]].
    + left. apply sources_in, D6. exact I.
    + right. apply filter_In. split; [apply PI; exact I|]. apply no_targets_in. intros a Q. apply D6 in Q. exact (J a Q).
Qed.

(* C135: with a text for every name the library lists and a registry that gives
   an id or a version, nothing panics.  Missing: names without a text, see below. *)
Theorem C135_no_panic_partial : forall lib texts fuel root st, (forall g o, topo g = Some o -> is_topo g o) ->
  gives_ids server -> (forall n, is_name lib n -> mget N.eqb n texts <> None) ->
  register_schema fuel lib texts root <> (st, Panic).
Proof.
  intros lib texts fuel root st TP ID TX. destruct (sets_nodes lib [] (NoDup_nil _)) as [_ [_ [B [_ D]]]].
  assert (TX' : forall n, In n (lib_nodes lib) -> mget N.eqb n texts <> None).
  { intros n I. destruct (D n I) as [[]|Q]. exact (TX n Q). }
  apply run_safe; [exact TP|exact ID|exact TX'|apply to_graph_safe; exact TX'|].
  intros m F. destruct (find_module_some _ _ _ F) as [M E]. rewrite <- E. exact (B m M).
Qed.

(* Refuted: that a schema never refers to itself.  If nothing depends on the
   root, its last schema has a reference to the root. *)
Theorem C135_self_reference_refuted : forall lib texts fuel root st last, (forall g o, topo g = Some o -> is_topo g o) ->
  register_schema fuel lib texts root = (st, Ok last) -> (forall a, ~ depends deps_of lib texts a root) ->
  exists l s, r_log st = l ++ [(root, s, last)] /\ In root (ref_names s).
Proof.
  intros lib texts fuel root st last TP H N. destruct (C135_complete _ _ _ _ _ _ TP H) as [l [s [L [_ [B [_ [_ [_ [_ Q]]]]]]]]].
  exists l, s. split; [exact L|]. apply Q. right. split; [|exact N].
  unfold YgModel.register_schema in H. destruct (find_module lib root) as [m|] eqn:F; [|discriminate H].
  destruct (find_module_some _ _ _ F) as [M E]. rewrite <- E. exact (B m M).
Qed.

(* C136: when every answer of the registry has a subject and a version, each
   reference names exactly those. *)
Theorem C136_versions_partial : forall lib texts fuel root st x, full_answers server ->
  register_schema fuel lib texts root = (st, x) ->
  forall l1 n s r l2, r_log st = l1 ++ (n, s, r) :: l2 -> forall y, In y (sc_refs s) ->
    exists s' r', In (rf_name y, s', r') l1 /\ rg_subject r' = Some (rf_subject y) /\ rg_version r' = Some (rf_version y).
Proof.
  intros lib texts fuel root st x FA H l1 n s r l2 E y Y. destruct (run_sound _ _ _ _ _ _ _ _ _ _ H) as [_ [S A]].
  destruct (S _ _ _ _ _ E) as [_ [_ [_ D]]]. destruct (D y Y) as [s' [r' [I [Q1 Q2]]]]. exists s', r'. split; [exact I|].
  assert (J : In (rf_name y, s', r') (r_log st)) by (rewrite E; apply in_or_app; left; exact I).
  destruct (A _ _ _ J) as [c [h SV]]. destruct (FA _ _ _ SV) as [F1 F2].
  destruct (rg_subject r'); [|congruence]. destruct (rg_version r'); [|congruence]. subst. split; reflexivity.
Qed.

(* C136: the registry may leave the version out of its answer to a registration,
   as long as it gives it when asked for the schema by its content: if it refused
   nothing, each reference still names the subject and version it returned. *)
Theorem C136_looked_up_partial : forall lib texts fuel root st x, names_subjects server -> looks_up server ->
  register_schema fuel lib texts root = (st, x) -> (forall u a, ~ In (CNoCompat u, a) (r_hist st)) ->
  forall l1 n s r l2, r_log st = l1 ++ (n, s, r) :: l2 -> forall y, In y (sc_refs s) ->
    exists s' r', In (rf_name y, s', r') l1 /\ rg_subject r' = Some (rf_subject y) /\ rg_version r' = Some (rf_version y).
Proof.
  intros lib texts fuel root st x NS LU H P l1 n s r l2 E y Y. destruct (run_sound _ _ _ _ _ _ _ _ _ _ H) as [_ [S _]].
  pose proof (run_versioned _ _ _ _ _ _ _ _ _ _ H P) as A.
  destruct (S _ _ _ _ _ E) as [_ [_ [_ D]]]. destruct (D y Y) as [s' [r' [I [Q1 Q2]]]]. exists s', r'. split; [exact I|].
  assert (J : In (rf_name y, s', r') (r_log st)) by (rewrite E; apply in_or_app; left; exact I).
  assert (F : rg_subject r' <> None /\ rg_version r' <> None).
  { destruct (A _ _ _ J) as [[h [u [t [SV V]]]]|[h [u [t SV]]]]; split; [exact (NS _ _ _ SV)|exact V|exact (NS _ _ _ SV)|exact (LU _ _ _ _ SV)]. }
  destruct F as [F1 F2]. destruct (rg_subject r'); [|congruence]. destruct (rg_version r'); [|congruence]. subst. split; reflexivity.
Qed.

(* Refuted: that the registry's compatibility check decides.  In every successful
   run each registration the registry did not grant is followed by switching the
   check off for that subject and by the same registration, granted. *)
Theorem C136_check_kept_refuted : forall lib texts fuel root st last, register_schema fuel lib texts root = (st, Ok last) ->
  overridden (r_hist st).
Proof. intros lib texts fuel root st last H. exact (run_forced _ _ _ _ _ _ _ _ _ _ H). Qed.
End RegisterProps.

(* Refuted: that a listed submodule nothing includes may be left out of the
   texts.  Whatever the registry grants, the program panics. *)
Theorem C135_listed_submodule_refuted : forall deps_of subject_of server topo n s t fuel,
  (forall g, exists o, topo g = Some o /\ is_topo g o) ->
  (forall h u x, exists i v d, server h (CRegister u x) = Some (AReg (Reg i (Some v) d))) ->
  n <> s -> deps_of t = Some ([], []) ->
  snd (register_schema deps_of subject_of server topo (S fuel) [MSet [Mod n None [] [Sub s None] [] []] []] [(n, t)] n) = Panic.
Proof.
  intros deps_of subject_of server topo n s t fuel TP SV NE D. unfold register_schema.
  set (lib := [MSet [Mod n None [] [Sub s None] [] []] []]).
  assert (Es : (s =? n) = false) by lia. assert (En : (n =? s) = false) by lia.
  assert (FM : find_module lib n = Some (Mod n None [] [Sub s None] [] [])).
  { unfold lib, find_module. cbn. unfold mod_is. cbn. rewrite N.eqb_refl. reflexivity. }
  assert (G : to_graph deps_of lib [(n, t)] (S fuel) = Ok (Graph [n; s] [])).
  { unfold to_graph. assert (NN : lib_nodes lib = [n; s]).
    { unfold lib, lib_nodes. cbn. unfold set_nodes. cbn. unfold mod_nodes. cbn. unfold add_node. cbn. rewrite Es. reflexivity. }
    rewrite NN. unfold lib at 3. cbn [gfold ms_mods ms_imps flat_map]. unfold add_module_edges at 1. cbn [md_name md_augs md_devs app]. unfold own_deps, in_graph. cbn [g_nodes].
    replace (mem n [n; s]) with true by (cbn; rewrite N.eqb_refl; reflexivity). cbn [mget]. rewrite N.eqb_refl, D. reflexivity. }
  rewrite FM, G. destruct (TP (Graph [n; s] [])) as [o [TO [P _]]]. rewrite TO. cbn [g_nodes] in *.
  replace (mem n [n; s]) with true by (cbn; rewrite N.eqb_refl; reflexivity).
  assert (SN : forall st, register_node subject_of server lib [(n, t)] s (sources (Graph [n; s] []) s) st = (st, Panic)).
  { intros st. unfold register_node. cbn. rewrite Es. reflexivity. }
  destruct (Permutation_length_2_inv (Permutation_sym P)) as [-> | ->]; cbn [register_all]; [|rewrite SN; reflexivity].
  unfold register_node at 1. cbn [sources g_edges filter map refs_of mget]. rewrite N.eqb_refl. unfold register_one, ask.
  match goal with |- context [server ?h (CRegister ?u ?x)] => destruct (SV h u x) as [i [v [d Q]]]; rewrite Q end. cbn [rg_version].
  rewrite SN. reflexivity.
Qed.

(* ---- non-vacuity ---- *)
(* 1 includes 10 and imports 2 and 3; 10 imports 3; 4 deviates 2; 3 is
   import-only. *)
Definition eg_lib : library :=
  [MSet [Mod 1 None [[7]] [Sub 10 None] [] []; Mod 2 None [] [] [4] []; Mod 4 None [] [] [] []] [(3, [Imp 3 None []])]].
Definition eg_texts : list (name * octets) := [(1, [1]); (2, [2]); (3, [3]); (4, [4]); (10, [10])].
Definition eg_deps (t : octets) : option (list name * list name) :=
  match t with
  | [1] => Some ([2; 3], [10])
  | [10] => Some ([3], [])
  | [4] => Some ([2], [])
  | _ => Some ([], [])
  end.
Definition eg_g : graph := Graph [1; 10; 2; 4; 3] [(2, 1); (3, 1); (10, 1); (3, 10); (2, 4)].
Definition graph_dec : forall g h : graph, {g = h} + {g <> h}.
Proof. decide equality; apply list_eq_dec; [decide equality; apply N.eq_dec|apply N.eq_dec]. Defined.
Definition eg_topo (g : graph) : option (list name) := if graph_dec g eg_g then Some [3; 2; 4; 10; 1] else None.
Lemma eg_topo_ok : forall g o, eg_topo g = Some o -> is_topo g o.
Proof.
  intros g o H. unfold eg_topo in H. destruct (graph_dec g eg_g) as [->|]; [|discriminate H]. injection H as <-. split.
  - cbn. apply NoDup_Permutation.
    + repeat constructor; cbn; intuition discriminate.
    + repeat constructor; cbn; intuition discriminate.
    + cbn. intuition.
  - intros b a I. cbn in I. repeat (destruct I as [I|I]; [injection I as <- <-|]); [| | | | |destruct I].
    + exists [3], [4; 10], []. reflexivity.
    + exists [], [2; 4; 10], []. reflexivity.
    + exists [3; 2; 4], [], []. reflexivity.
    + exists [], [2; 4], [1]. reflexivity.
    + exists [3], [], [10; 1]. reflexivity.
Qed.
(* A registry that refuses the first registration of subject 2, and gives the
   number of the call as version. *)
Definition eg_server (h : history) (c : call) : option answer :=
  match c with
  | CRegister u _ => if (u =? 2) && negb (existsb (fun x => match fst x with CNoCompat 2 => true | _ => false end) h)
                     then None else Some (AReg (Reg (Some u) (Some (N.of_nat (List.length h) + 1)) (Some 9)))
  | CById _ _ => None
  | CBySchema _ _ => None
  | CNoCompat _ => Some ADone
  end.
Definition eg_run := register_schema eg_deps (fun n => n) eg_server eg_topo 3 eg_lib eg_texts 1.

Example C134_nonvacuous : to_graph eg_deps eg_lib eg_texts 2 = Ok eg_g /\
  ranked eg_deps eg_texts (fun n => if n =? 1 then 1%nat else 0%nat) /\
  to_graph eg_deps [MSet [Mod 1 None [] [] [] []] []] [(1, [1])] 1 = Err (NoModule 2).
Proof.
  split; [reflexivity|]. split; [|reflexivity]. intros a b [t [d [T [D I]]]]. apply (mget_In N.eqb Neqb_spec) in T. cbn in T.
  repeat (destruct T as [T|T]; [injection T as <- <-; injection D as <-; cbn in I; first [destruct I; fail|destruct I as [<-|[]]; apply Nat.lt_0_1]|]). destruct T.
Qed.
Example C135_nonvacuous : (forall g o, eg_topo g = Some o -> is_topo g o) /\ gives_ids eg_server /\
  (forall n, is_name eg_lib n -> mget N.eqb n eg_texts <> None) /\
  snd eg_run = Ok (Reg (Some 1) (Some 8) (Some 9)) /\
  map (fun e => (e_of e, ref_names (snd (fst e)))) (r_log (fst eg_run)) =
    [(3, []); (2, []); (4, [2]); (10, [3]); (1, [2; 3; 10]); (1, [1; 2; 3; 4; 10])].
Proof.
  split; [exact eg_topo_ok|]. split.
  { intros h c r H V. destruct c as [u x|u i|u x|u]; cbn in H; try discriminate H.
    destruct ((u =? 2) && negb (existsb (fun x => match fst x with CNoCompat 2 => true | _ => false end) h)); [discriminate H|].
    injection H as <-. discriminate V. }
  split; [|split; lazy; reflexivity].
  intros n [[m [[s [[<-|[]] M]] Q]]|[i [[s [k [l [[<-|[]] [M1 M2]]]]] Q]]].
  - cbn in M. repeat (destruct M as [<-|M]; [cbn in Q; repeat (destruct Q as [->|Q]; [discriminate|]); repeat (destruct Q as [<-|Q]; [discriminate|]); destruct Q|]). destruct M.
  - cbn in M1. destruct M1 as [M1|[]]. injection M1 as <- <-. destruct M2 as [<-|[]]. cbn in Q. destruct Q as [->|[]]. discriminate.
Qed.
(* the same registry, but without a version in what follows a refusal *)
Definition eg_server0 (h : history) (c : call) : option answer :=
  match eg_server h c, c with
  | Some (AReg r), CRegister 2 _ => Some (AReg (Reg (rg_subject r) None (rg_id r)))
  | x, _ => x
  end.
Definition eg_run0 := register_schema eg_deps (fun n => n) eg_server0 eg_topo 3 eg_lib eg_texts 1.
(* Refuted: that a reference never has a version the registry did not give. The
   registry below gives no version 0, yet module 4 refers to version 0 of 2. *)
Theorem C136_version_refuted : exists deps_of subject_of server topo lib texts fuel root st last l1 n s r l2 y,
  (forall g o, topo g = Some o -> is_topo g o) /\
  (forall h c r, server h c = Some (AReg r) -> rg_version r <> Some 0) /\
  register_schema deps_of subject_of server topo fuel lib texts root = (st, Ok last) /\
  r_log st = l1 ++ (n, s, r) :: l2 /\ In y (sc_refs s) /\ rf_name y = 2 /\ rf_version y = 0.
Proof.
  exists eg_deps, (fun n => n), eg_server0, eg_topo, eg_lib, eg_texts, 3%nat, 1, (fst eg_run0), (Reg (Some 1) (Some 8) (Some 9)),
    (firstn 2 (r_log (fst eg_run0))), 4, (Schema [4] [Ref 2 2 0] []), (Reg (Some 4) (Some 5) (Some 9)), (skipn 3 (r_log (fst eg_run0))), (Ref 2 2 0).
  split; [exact eg_topo_ok|]. split.
  - intros h c r H V. unfold eg_server0 in H.
    destruct c as [u z|u i|u z|u]; cbn [eg_server] in H; try discriminate H.
    match type of H with context [if ?c then _ else _] => destruct c end; [discriminate H|].
    destruct u as [|[p|[p|p|]|]]; injection H as <-; cbn in V; try discriminate V; injection V as V; lia.
  - split; [lazy; reflexivity|]. split; [lazy; reflexivity|]. split; [left; reflexivity|split; reflexivity].
Qed.
Example C136_nonvacuous : full_answers eg_server /\ snd eg_run = Ok (Reg (Some 1) (Some 8) (Some 9)) /\
  In (CNoCompat 2, Some ADone) (r_hist (fst eg_run)).
Proof.
  split; [|split; lazy; [reflexivity|right; right; left; reflexivity]].
  intros h c r H. destruct c as [u x|u i|u x|u]; cbn in H; try discriminate H.
  destruct ((u =? 2) && negb (existsb (fun x => match fst x with CNoCompat 2 => true | _ => false end) h)); [discriminate H|].
  injection H as <-. split; discriminate.
Qed.
(* a registry that gives versions only when asked by content *)
Definition eg_server1 (h : history) (c : call) : option answer :=
  match c with
  | CRegister u _ => Some (AReg (Reg (Some u) None (Some u)))
  | CById _ _ => Some (ASchema 7)
  | CBySchema u _ => Some (AReg (Reg (Some u) (Some (N.of_nat (List.length h))) (Some u)))
  | CNoCompat _ => Some ADone
  end.
Definition eg_run1 := register_schema eg_deps (fun n => n) eg_server1 eg_topo 3 eg_lib eg_texts 1.
Example C136_nonvacuous_looked_up : names_subjects eg_server1 /\ looks_up eg_server1 /\
  (forall u a, ~ In (CNoCompat u, a) (r_hist (fst eg_run1))) /\
  map (fun e => map (fun y => (rf_name y, rf_version y)) (sc_refs (snd (fst e)))) (r_log (fst eg_run1)) =
    [[]; []; [(2, 5)]; [(3, 2)]; [(2, 5); (3, 2); (10, 11)]; [(1, 14); (2, 5); (3, 2); (4, 8); (10, 11)]].
Proof.
  split; [intros h [u t|u i|u t|u] r E; try discriminate E; injection E as <-; discriminate|]. split; [intros h u t r E; injection E as <-; discriminate|].
  split; [|lazy; reflexivity]. intros u a I. lazy in I. repeat (destruct I as [I|I]; [discriminate I|]). destruct I.
Qed.

Print Assumptions C134_exact.
Print Assumptions C134_ends_partial.
Print Assumptions C134_include_cycle_refuted.
Print Assumptions C134_missing_text_refuted.
Print Assumptions C135_references.
Print Assumptions C135_complete.
Print Assumptions C135_no_panic_partial.
Print Assumptions C135_self_reference_refuted.
Print Assumptions C135_listed_submodule_refuted.
Print Assumptions C136_versions_partial.
Print Assumptions C136_looked_up_partial.
Print Assumptions C136_version_refuted.
Print Assumptions C136_check_kept_refuted.
