(* Properties C126-C128: the scanner that reads imports and includes out of a
   YANG schema text (crates/yang-push/src/yangparser.rs). *)
From Coq Require Import String.
From Verif Require Import Base YpModel YpSpec YpFuelProofs YpAsciiProofs YpProofs YpHangProofs.

Section U.
(* What [char::is_whitespace], [is_alphabetic], [is_numeric] say of characters
   outside ASCII: every choice is covered. *)
Variable u_white u_alpha u_num : N -> bool.
Notation extract := (extract u_white u_alpha u_num).
Notation extract_upto := (extract_upto u_white u_alpha u_num).

(* ---- C126: the scan returns ---- *)
(* The number of turns given to the model is no bound on the scanner: any
   larger number gives the same outcome. *)
Theorem C126_enough_turns : forall t n, (List.length t < n)%nat -> extract_upto n t = extract t.
Proof. exact (extract_enough u_white u_alpha u_num). Qed.
(* A text in which neither word occurs is always scanned to an end. *)
Theorem C126_returns_partial : forall t,
  (forall p q, t <> p ++ chars "import" ++ q) -> (forall p q, t <> p ++ chars "include" ++ q) ->
  extract t <> Diverge.
Proof. exact (returns u_white u_alpha u_num). Qed.
(* A schema text cut inside the block of an import, after any opening and any
   number of complete substatements: the scan never ends. *)
Theorem C126_cut_import_refuted : forall m g a b b0 l, opening_ok m ->
  gap_ok g -> name_ok a -> blank_ok b -> blank_ok b0 -> subs_ok true l ->
  forall n, extract_upto n (opening_text m ++ chars "import" ++ gtext g ++ arg_text a ++
                            btext b ++ [123] ++ btext b0 ++ subs_text l) = Diverge.
Proof. exact (hang_import u_white u_alpha u_num). Qed.
Theorem C126_cut_include_refuted : forall m g a b b0 l, opening_ok m ->
  gap_ok g -> name_ok a -> blank_ok b -> blank_ok b0 -> subs_ok false l ->
  forall n, extract_upto n (opening_text m ++ chars "include" ++ gtext g ++ arg_text a ++
                            btext b ++ [123] ++ btext b0 ++ subs_text l) = Diverge.
Proof. exact (hang_include u_white u_alpha u_num). Qed.
(* A complete, legal module is enough: an import whose description is a
   single-quoted string ending in a backslash, when no such string follows. *)
Theorem C126_backslash_refuted : forall m g a b b0 l t rest, opening_ok m ->
  gap_ok g -> name_ok a -> blank_ok b -> blank_ok b0 -> subs_ok true l -> ~ In 39 t -> ~ In 39 rest ->
  forall n, extract_upto n (opening_text m ++ chars "import" ++ gtext g ++ arg_text a ++
                            btext b ++ [123] ++ btext b0 ++ subs_text l ++
                            chars "description" ++ [32; 39] ++ t ++ [92; 39] ++ rest) = Diverge.
Proof. exact (hang_backslash u_white u_alpha u_num). Qed.

(* ---- C127: the scan does not panic ---- *)
Theorem C127_ascii_partial : forall n t, ascii t -> extract_upto n t <> Panic.
Proof. exact (extract_ascii u_white u_alpha u_num). Qed.
(* A text that ends in a character outside ASCII. *)
Theorem C127_last_character_refuted : forall b c, blank_ok b -> 128 <= c -> u_white c = false ->
  extract (btext b ++ [c]) = Panic.
Proof. exact (panic_last u_white u_alpha u_num). Qed.
(* An accented letter standing by itself outside strings and comments. *)
Theorem C127_letter_refuted : forall b rest, blank_ok b -> u_white 233 = false ->
  extract (btext b ++ 233 :: 32 :: rest) = Panic.
Proof. exact (panic_token u_white u_alpha u_num). Qed.

(* ---- C128: the scan finds the dependencies ---- *)
Theorem C128_extracts_partial : forall m, mod_ok m ->
  extract (mod_text m) = Ok (mkDeps (imports_of (m_links m)) (includes_of (m_links m))).
Proof. exact (extract_module u_white u_alpha u_num). Qed.
(* A module named after one of the four meta statements: every dependency is
   lost, without an error. *)
Theorem C128_meta_name_refuted : forall b kw g w c rest, blank_ok b -> kw_ok kw -> ~ reserved kw ->
  gap_ok g -> meta_kw w -> blank_char c = true \/ c = 123 ->
  extract (btext b ++ kw ++ gtext g ++ w ++ c :: rest) = Ok (mkDeps [] []).
Proof. exact (meta_name u_white u_alpha u_num). Qed.
(* A node named import, in a module without meta statements before it: the
   module is refused. *)
Theorem C128_import_node_refuted : forall m kw g g' rest, opening_ok m -> kw_ok kw -> ~ reserved kw ->
  gap_ok g -> gap_ok g' ->
  exists e, extract (opening_text m ++ kw ++ gtext g ++ chars "import" ++ gtext g' ++ 123 :: rest) = Err e.
Proof. exact (import_node u_white u_alpha u_num). Qed.
End U.
Print Assumptions C126_enough_turns.
Print Assumptions C126_returns_partial.
Print Assumptions C126_cut_import_refuted.
Print Assumptions C126_cut_include_refuted.
Print Assumptions C126_backslash_refuted.
Print Assumptions C127_ascii_partial.
Print Assumptions C127_last_character_refuted.
Print Assumptions C127_letter_refuted.
Print Assumptions C128_extracts_partial.
Print Assumptions C128_meta_name_refuted.
Print Assumptions C128_import_node_refuted.

(* ---- the hypotheses are met ---- *)
Definition yp_sp : gap := mkGap 32 [].
Definition yp_nl : blank := [PWs 10; PWs 32; PWs 32].
Definition yp_word (s : string) : arg := Word (chars s).
Definition yp_head : list (stmt * blank) :=
  [(Semi (chars "yang-version") (Some (yp_sp, yp_word "1.1")) [], yp_nl);
   (Semi (chars "namespace")
      (Some (yp_sp, Quoted (LDouble (map Plain (chars "urn:"))) [([PWs 32], [PWs 32], LSingle (chars "a{;import}"))])) [],
    [PWs 32; PLine (chars " caf" ++ [233]); PWs 32]);
   (Semi (chars "prefix") (Some (yp_sp, yp_word "a")) [], yp_nl)].
Definition yp_links : list (link * blank) :=
  [(LImport yp_sp (yp_word "b") [PWs 32] [PWs 10]
      [(SubPrefix yp_sp (Quoted (LDouble [Plain 98; Esc 110]) []) [], [PWs 32]);
       (SubOther (Block (chars "ext:note") (Some (yp_sp, Quoted (LDouble (map Plain (chars "} // ;"))) [])) [] []
          [(Semi (chars "x") None [], [])]), [PBlock (chars "/ * import z;")]);
       (SubRev yp_sp (yp_word "2024-01-01") [], [])], yp_nl);
   (LIncludeSemi yp_sp (Quoted (LSingle (chars "sub1")) []) [], yp_nl);
   (LIncludeBlock yp_sp (yp_word "sub2") [] [PWs 32] [(SubRev yp_sp (yp_word "2020-12-31") [PWs 32], [PWs 32])], yp_nl)].
Definition yp_m : modl :=
  mkMod [PBlock (chars " lead ")] (chars "module") yp_sp (yp_word "a") [PWs 32] yp_nl yp_head yp_links
    (TMeta (chars "organization") 32 (chars """o""; leaf import {} }")).
Lemma yp_short : forall w : text, (List.length w < 6)%nat -> forall u v, w = u ++ v -> ~ reserved v.
Proof.
  intros w L u v E R. apply (f_equal (@List.length N)) in E. rewrite app_length in E.
  destruct R as [ -> |[ -> |[ -> |[ -> |[ -> | -> ]]]]]; cbn in E; lia.
Qed.
Lemma yp_no_close : forall t, (fix go (t : text) : bool :=
    match t with c :: ((d :: _) as r) => negb ((c =? 42) && (d =? 47)) && go r | _ => true end) t = true ->
  ~ exists a b, t = a ++ [42; 47] ++ b.
Proof.
  intros t H [a [b ->]]. revert H. induction a as [|c a IH]; [intros H; vm_compute in H; discriminate H|].
  intros H. apply IH. destruct a as [|d a]; cbn [app] in *; apply andb_prop in H; exact (proj2 H).
Qed.
Definition yp_dqc (x : dqc) : bool :=
  match x with
  | Plain c => negb (c =? 34) && negb (c =? 92)
  | Esc c => (c =? 110) || (c =? 116) || (c =? 34) || (c =? 92)
  end.
Lemma yp_dq : forall l, forallb yp_dqc l = true -> lit_ok (LDouble l).
Proof.
  intros l H. cbn. apply Forall_forall. intros x K. pose proof (proj1 (forallb_forall _ _) H x K) as E.
  destruct x; cbn in *; lia.
Qed.
Lemma yp_notin : forall (c : N) l, forallb (fun d => negb (d =? c)) l = true -> ~ In c l.
Proof. intros c l H K. pose proof (proj1 (forallb_forall _ _) H c K) as E. cbn in E. lia. Qed.
Ltac yp_go :=
  lazymatch goal with
  | |- True => exact I
  | |- _ = true => reflexivity
  | |- true = true => reflexivity
  | |- Forall _ [] => apply Forall_nil
  | |- Forall _ (_ :: _) => apply Forall_cons; yp_go
  | |- blank_ok _ => unfold blank_ok, yp_nl; yp_go
  | |- gap_ok _ => exact (conj eq_refl (Forall_nil _))
  | |- blank_char _ = true => reflexivity
  | |- piece_ok (PWs _) => reflexivity
  | |- piece_ok (PLine _) => apply yp_notin; reflexivity
  | |- piece_ok (PBlock _) => apply yp_no_close; reflexivity
  | |- lit_ok (LDouble _) => apply yp_dq; reflexivity
  | |- lit_ok (LSingle _) => apply yp_notin; reflexivity
  | |- join_ok (_, _, _) => unfold join_ok; yp_go
  | |- arg_ok (Word _) => split; [discriminate|reflexivity]
  | |- arg_ok (yp_word _) => split; [discriminate|reflexivity]
  | |- arg_ok (Quoted _ _) => unfold arg_ok; yp_go
  | |- name_ok (yp_word _) => split; [yp_go|split; reflexivity]
  | |- name_ok (Quoted _ _) => split; yp_go
  | |- no_final_backslash (yp_word _) => exact I
  | |- no_final_backslash (Quoted _ _) => split; [discriminate|yp_go]
  | |- inert_arg (yp_word _) => first [right; apply yp_short; cbn; lia | left; split; [split; reflexivity|yp_go]]
  | |- inert_arg (Quoted _ _) => exact I
  | |- optarg_inert _ => unfold optarg_inert; yp_go
  | |- kw_ok _ => split; reflexivity
  | |- ~ reserved _ => intros [K|[K|[K|[K|[K|K]]]]]; discriminate K
  | |- stmt_all _ _ (Semi _ None _) => split; [split; yp_go|split; [exact I|yp_go]]
  | |- stmt_all _ _ (Semi _ (Some (_, _)) _) => split; [split; yp_go|split; [|yp_go]]; yp_go
  | |- stmt_all _ _ (Block _ (Some (_, _)) _ _ _) => split; [split; yp_go|split; [yp_go|split; [yp_go|split; [yp_go|yp_go]]]]
  | |- stmt_kw _ <> _ => discriminate
  | |- link_ok _ => unfold link_ok; yp_go
  | |- subs_ok _ _ => unfold subs_ok; yp_go
  | |- sub_ok _ (SubOther _) => split; [yp_go|split; [discriminate|intros _; discriminate]]
  | |- sub_ok _ _ => unfold sub_ok; yp_go
  | |- _ <> None => discriminate
  | |- _ /\ _ => split; yp_go
  | |- (fun _ => _) _ => cbv beta; cbn [fst snd]; yp_go
  | |- forall _, _ => intros; yp_go
  | |- _ => progress (cbn [fst snd]); yp_go
  end.
Lemma yp_opening : opening_ok yp_m.
Proof.
  unfold opening_ok, yp_m, inerts, stmts_all, yp_head, yp_links.
  cbn [m_lead m_kw m_gap m_arg m_b m_b0 m_head m_links].
  yp_go.

Qed.
Definition no_u (_ : N) : bool := false.
Example C126_nonvacuous : opening_ok yp_m /\ gap_ok yp_sp /\ name_ok (yp_word "b") /\
  subs_ok true [(SubPrefix yp_sp (yp_word "b") [], [PWs 32])] /\
  (* what the four theorems say, on one truncated and one complete text *)
  extract no_u no_u no_u (chars "module a { import b { prefix b; ") = Diverge /\
  extract no_u no_u no_u (chars "module a { import b { prefix b; } import c { prefix c; description 'C:\'; } }") = Diverge /\
  extract no_u no_u no_u (chars "module a { leaf x { type string; } }") = Ok (mkDeps [] []).
Proof. split; [exact yp_opening|]. repeat (split; [yp_go|]). repeat split; vm_compute; reflexivity. Qed.
Example C127_nonvacuous : ascii (mod_text (mkMod [] (chars "module") yp_sp (yp_word "a") [] [] [] yp_links (TEnd []))) /\
  blank_ok [PLine (chars "x"); PWs 32] /\
  extract no_u no_u no_u (btext [PLine (chars "x"); PWs 32] ++ [233]) = Panic /\
  (* inside comments and strings such characters do no harm *)
  extract no_u no_u no_u (chars "module a { // caf" ++ [233] ++ chars "
   namespace '" ++ [233; 8364] ++ chars "'; }") = Ok (mkDeps [] []).
Proof.
  split; [|split; [yp_go|split; reflexivity]].
  intros c H. assert (A : forallb (fun c => c <? 128) (mod_text (mkMod [] (chars "module") yp_sp (yp_word "a") [] [] [] yp_links (TEnd []))) = true) by (vm_compute; reflexivity).
  pose proof (proj1 (forallb_forall _ _) A c H) as E. cbn in E. lia.
Qed.
Example C128_nonvacuous : mod_ok yp_m /\
  imports_of (m_links yp_m) = [mkImport (chars "b") [98; 10] (Some (chars "2024-01-01"))] /\
  includes_of (m_links yp_m) = [mkInclude (chars "sub1") None; mkInclude (chars "sub2") (Some (chars "2020-12-31"))] /\
  extract no_u no_u no_u (mod_text yp_m) = Ok (mkDeps (imports_of (m_links yp_m)) (includes_of (m_links yp_m))) /\
  extract no_u no_u no_u (chars "module contact { import b { prefix b; } }") = Ok (mkDeps [] []) /\
  (kw_ok (chars "leaf") /\ ~ reserved (chars "leaf")).
Proof.
  split; [split; [exact yp_opening|split; left; reflexivity]|].
  do 4 (split; [vm_compute; reflexivity|]). split; yp_go.
Qed.
