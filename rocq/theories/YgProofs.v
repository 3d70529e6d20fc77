(* Lemmas about the dependency graph and registration. *)
From Coq Require Import Permutation Sorted.
From Verif Require Import Base MapLib YlModel YlSpec YlProofs YgModel YgSpec.

(* ---- nodes ---- *)
Lemma NoDup_app_intro : forall {X} (l1 l2 : list X), NoDup l1 -> NoDup l2 -> (forall x, In x l1 -> ~ In x l2) -> NoDup (l1 ++ l2).
Proof.
  intros X. induction l1 as [|x l1 IH]; intros l2 A B C; [exact B|]. apply NoDup_cons_iff in A. destruct A as [A1 A2]. cbn. constructor.
  - intros H. apply in_app_or in H. destruct H as [H|H]; [exact (A1 H)|exact (C x (or_introl eq_refl) H)].
  - apply IH; [exact A2|exact B|]. intros y Y. apply C. right. exact Y.
Qed.
Lemma NoDup_snoc : forall {A} (l : list A) x, NoDup l -> ~ In x l -> NoDup (l ++ [x]).
Proof. intros A l x D H. apply (Permutation_NoDup (l := x :: l)); [apply Permutation_cons_append|constructor; assumption]. Qed.
Lemma add_node_nodup : forall l n, NoDup l -> NoDup (add_node l n).
Proof. intros l n D. unfold add_node. destruct (mem n l) eqn:M; [exact D|]. apply NoDup_snoc; [exact D|apply mem_out; exact M]. Qed.
Lemma add_node_in : forall l n x, In x (add_node l n) <-> In x l \/ x = n.
Proof.
  intros l n x. unfold add_node. destruct (mem n l) eqn:M; [|apply in_snoc]. apply mem_in in M.
  split; [intros H; left; exact H|intros [H| ->]; assumption].
Qed.
Lemma add_nodes : forall ns l, NoDup l -> NoDup (fold_left add_node ns l) /\ forall x, In x (fold_left add_node ns l) <-> In x l \/ In x ns.
Proof.
  induction ns as [|n r IH]; intros l D; cbn; [split; [exact D|intuition]|].
  destruct (IH (add_node l n) (add_node_nodup l n D)) as [A B]. split; [exact A|]. intros x. rewrite B, add_node_in. intuition.
Qed.
Lemma named_nodes : forall l n subs (D : NoDup l), let l' := if mem n l then l else fold_left add_node subs (l ++ [n]) in
  NoDup l' /\ incl l l' /\ In n l' /\ forall x, In x l' -> In x l \/ x = n \/ In x subs.
Proof.
  intros l n subs D. cbn. destruct (mem n l) eqn:M.
  - apply mem_in in M. repeat split; [exact D|intros x H; exact H|exact M|intros x H; left; exact H].
  - destruct (add_nodes subs (l ++ [n]) (NoDup_snoc _ _ D (proj1 (mem_out _ _) M))) as [A B]. repeat split.
    + exact A.
    + intros x H. apply B. left. apply in_snoc. left. exact H.
    + apply B. left. apply in_snoc. right. reflexivity.
    + intros x H. apply B in H. rewrite in_snoc in H. intuition.
Qed.
Lemma mods_nodes : forall ms l, NoDup l -> let l' := fold_left mod_nodes ms l in
  NoDup l' /\ incl l l' /\ (forall m, In m ms -> In (md_name m) l') /\
  forall x, In x l' -> In x l \/ exists m, In m ms /\ (x = md_name m \/ In x (map sb_name (md_subs m))).
Proof.
  induction ms as [|m r IH]; intros l D; cbn.
  - repeat split; [exact D|intros x H; exact H|intros m []|intros x H; left; exact H].
  - destruct (named_nodes l (md_name m) (map sb_name (md_subs m)) D) as [A1 [A2 [A3 A4]]].
    destruct (IH (mod_nodes l m) A1) as [B1 [B2 [B3 B4]]]. repeat split.
    + exact B1.
    + intros x H. exact (B2 x (A2 x H)).
    + intros m' [<-|H]; [exact (B2 _ A3)|exact (B3 m' H)].
    + intros x H. destruct (B4 x H) as [H1|[m' [H1 H2]]].
      * destruct (A4 x H1) as [H2|H2]; [left; exact H2|right; exists m; split; [left; reflexivity|exact H2]].
      * right. exists m'. split; [right; exact H1|exact H2].
Qed.
Lemma imps_nodes : forall ms l, NoDup l -> let l' := fold_left imp_nodes ms l in
  NoDup l' /\ incl l l' /\ (forall m, In m ms -> In (im_name m) l') /\
  forall x, In x l' -> In x l \/ exists m, In m ms /\ (x = im_name m \/ In x (map sb_name (im_subs m))).
Proof.
  induction ms as [|m r IH]; intros l D; cbn.
  - repeat split; [exact D|intros x H; exact H|intros m []|intros x H; left; exact H].
  - destruct (named_nodes l (im_name m) (map sb_name (im_subs m)) D) as [A1 [A2 [A3 A4]]].
    destruct (IH (imp_nodes l m) A1) as [B1 [B2 [B3 B4]]]. repeat split.
    + exact B1.
    + intros x H. exact (B2 x (A2 x H)).
    + intros m' [<-|H]; [exact (B2 _ A3)|exact (B3 m' H)].
    + intros x H. destruct (B4 x H) as [H1|[m' [H1 H2]]].
      * destruct (A4 x H1) as [H2|H2]; [left; exact H2|right; exists m; split; [left; reflexivity|exact H2]].
      * right. exists m'. split; [right; exact H1|exact H2].
Qed.
Lemma sets_nodes : forall lib l, NoDup l -> let l' := fold_left set_nodes lib l in
  NoDup l' /\ incl l l' /\ (forall m, has_module lib m -> In (md_name m) l') /\ (forall i, has_import lib i -> In (im_name i) l') /\
  forall x, In x l' -> In x l \/ is_name lib x.
Proof.
  induction lib as [|s r IH]; intros l D; cbn.
  - repeat split; [exact D|intros x H; exact H|intros m [s [[] _]]|intros i [s [n [li [[] _]]]]|intros x H; left; exact H].
  - destruct (mods_nodes (ms_mods s) l D) as [A1 [A2 [A3 A4]]].
    destruct (imps_nodes (flat_map snd (ms_imps s)) _ A1) as [B1 [B2 [B3 B4]]].
    destruct (IH (set_nodes l s) B1) as [C1 [C2 [C3 [C4 C5]]]]. repeat split.
    + exact C1.
    + intros x H. exact (C2 x (B2 x (A2 x H))).
    + intros m [s' [[<-|I] H]]; [exact (C2 _ (B2 _ (A3 m H)))|]. apply C3. exists s'. split; assumption.
    + intros i [s' [n [li [[<-|I] [H1 H2]]]]].
      * apply C2. apply B3. apply in_flat_map. exists (n, li). split; assumption.
      * apply C4. exists s', n, li. repeat split; assumption.
    + intros x H. destruct (C5 x H) as [H1|[[m [[s' [I M]] H1]]|[i [[s' [n [li [I [M1 M2]]]]] H1]]]].
      * destruct (B4 x H1) as [H2|[i [H2 H3]]].
        -- destruct (A4 x H2) as [H3|[m [H3 H4]]]; [left; exact H3|]. right. left. exists m. split; [|exact H4].
           exists s. split; [left; reflexivity|exact H3].
        -- right. right. exists i. split; [|exact H3]. apply in_flat_map in H2. destruct H2 as [[n li] [H2 H4]].
           exists s, n, li. repeat split; [left; reflexivity|exact H2|exact H4].
      * right. left. exists m. split; [|exact H1]. exists s'. split; [right; exact I|exact M].
      * right. right. exists i. split; [|exact H1]. exists s', n, li. repeat split; [right; exact I|exact M1|exact M2].
Qed.

(* ---- edges ---- *)
Lemma edge_eqb_spec : forall e f, edge_eqb e f = true <-> e = f.
Proof.
  intros [a b] [c d]. unfold edge_eqb. cbn. rewrite andb_true_iff, !N.eqb_eq. split; [intros [-> ->]; reflexivity|].
  intros H. injection H as -> ->. split; reflexivity.
Qed.
Lemma has_edge : forall e l, existsb (edge_eqb e) l = true <-> In e l.
Proof.
  intros e l. rewrite existsb_exists. split.
  - intros [x [A B]]. apply edge_eqb_spec in B. subst. exact A.
  - intros H. exists e. split; [exact H|apply edge_eqb_spec; reflexivity].
Qed.
Lemma add_edge_nodes : forall e g, g_nodes (add_edge e g) = g_nodes g.
Proof. intros e g. unfold add_edge. destruct (existsb (edge_eqb e) (g_edges g)); reflexivity. Qed.
Lemma add_edge_in : forall e g x, In x (g_edges (add_edge e g)) <-> In x (g_edges g) \/ x = e.
Proof.
  intros e g x. unfold add_edge. destruct (existsb (edge_eqb e) (g_edges g)) eqn:E; [|apply in_snoc].
  apply has_edge in E. split; [intros H; left; exact H|intros [H| ->]; assumption].
Qed.
Lemma add_edge_nodup : forall e g, NoDup (g_edges g) -> NoDup (g_edges (add_edge e g)).
Proof.
  intros e g D. unfold add_edge. destruct (existsb (edge_eqb e) (g_edges g)) eqn:E; [exact D|]. apply NoDup_snoc; [exact D|].
  rewrite <- has_edge, E. discriminate.
Qed.
(* the graphs an operation may lead to: the same nodes, the edges that [P] says *)
Definition grows (P : name * name -> Prop) (g g' : graph) : Prop :=
  g_nodes g' = g_nodes g /\ (forall e, In e (g_edges g') <-> In e (g_edges g) \/ P e) /\
  (NoDup (g_edges g) -> NoDup (g_edges g')) /\
  forall e, P e -> In (fst e) (g_nodes g).
Lemma grows_edge : forall e g, In (fst e) (g_nodes g) -> grows (fun x => x = e) g (add_edge e g).
Proof.
  intros e g H. repeat split; [apply add_edge_nodes|apply add_edge_in|apply add_edge_in|apply add_edge_nodup|]. intros x ->. exact H.
Qed.
Lemma grows_iff : forall (P Q : name * name -> Prop) g g', (forall e, P e <-> Q e) -> grows P g g' -> grows Q g g'.
Proof.
  intros P Q g g' E [A [B [C D]]]. split; [exact A|]. split; [|split; [exact C|]].
  - intros e. rewrite B, E. reflexivity.
  - intros e H. apply D. apply E. exact H.
Qed.
Lemma grows_trans : forall P Q g g1 g2, grows P g g1 -> grows Q g1 g2 -> grows (fun e => P e \/ Q e) g g2.
Proof.
  intros P Q g g1 g2 [A1 [B1 [C1 D1]]] [A2 [B2 [C2 D2]]]. split; [congruence|]. split; [|split].
  - intros e. rewrite B2, B1. tauto.
  - intros H. exact (C2 (C1 H)).
  - intros e [H|H]; [exact (D1 e H)|]. rewrite <- A1. exact (D2 e H).
Qed.
Lemma grows_none : forall g, grows (fun _ => False) g g.
Proof. intros g. split; [reflexivity|]. split; [tauto|]. split; [auto|tauto]. Qed.
Lemma rbind_ok : forall {E A B} (x : res E A) (f : A -> res E B) y, rbind x f = Ok y -> exists a, x = Ok a /\ f a = Ok y.
Proof. intros E A B x f y H. destruct x; try discriminate H. exists a. split; [reflexivity|exact H]. Qed.
Lemma gfold_grows : forall {A} (f : A -> graph -> gres graph) (P : A -> name * name -> Prop) l,
  (forall x g g', In x l -> f x g = Ok g' -> grows (P x) g g') ->
  forall g g', gfold f l g = Ok g' -> grows (fun e => exists x, In x l /\ P x e) g g'.
Proof.
  intros A f P. induction l as [|x r IH]; intros F g g' H; cbn in H.
  - injection H as <-. apply (grows_iff (fun _ => False)); [|apply grows_none]. intros e. split; [intros []|intros [x [[] _]]].
  - apply rbind_ok in H. destruct H as [g1 [H1 H2]].
    pose proof (grows_trans _ _ _ _ _ (F x g g1 (or_introl eq_refl) H1) (IH (fun y a b Y => F y a b (or_intror Y)) g1 g' H2)) as T.
    refine (grows_iff _ _ _ _ _ T). intros e. split.
    + intros [H|[y [H Q]]]; [exists x; split; [left; reflexivity|exact H]|exists y; split; [right; exact H|exact Q]].
    + intros [y [[<-|H] Q]]; [left; exact Q|right; exists y; split; assumption].
Qed.

Section Graph.
Variable deps_of : octets -> option (list name * list name).
Variable lib : library.
Variable texts : list (name * octets).
Notation add_deps := (add_deps deps_of lib texts).
Notation own_deps := (own_deps deps_of lib texts).
Notation text_imports := (text_imports deps_of texts).
Notation text_includes := (text_includes deps_of texts).
Notation counts := (counts deps_of lib texts).
Notation depends := (depends deps_of lib texts).

(* below n: n and everything reached from it by includes *)
Inductive under (a : name) : name -> Prop :=
| UnderSelf : under a a
| UnderStep : forall b c, under a b -> text_includes b c -> under a c.
Lemma under_trans : forall a b c, under a b -> under b c -> under a c.
Proof. intros a b c H K. induction K as [|x y _ IH Q]; [exact H|exact (UnderStep _ _ _ IH Q)]. Qed.
Definition uses (a b : name) : Prop := text_imports a b \/ text_includes a b.
Lemma include_first : forall a x, under a x -> x = a \/ exists b, text_includes a b /\ under b x.
Proof.
  intros a x H. induction H as [|b c H IH Q]; [left; reflexivity|right]. destruct IH as [->|[d [I U]]].
  - exists c. split; [exact Q|constructor].
  - exists d. split; [exact I|exact (UnderStep _ _ _ U Q)].
Qed.
Lemma import_edge_grows : forall cur n g g', add_import_edge lib cur n g = Ok g' -> grows (fun e => e = (n, cur)) g g'.
Proof.
  intros cur n g g' H. unfold add_import_edge in H. destruct (module_exists lib n); [|discriminate H].
  destruct (in_graph n g) eqn:I; [|discriminate H]. injection H as <-. apply grows_edge. apply mem_in. exact I.
Qed.
Lemma add_deps_grows : forall fuel t d cur g g', mget N.eqb cur texts = Some t -> deps_of t = Some d ->
  add_deps fuel d cur g = Ok g' ->
  grows (fun e => under cur (snd e) /\ uses (snd e) (fst e)) g g'.
Proof.
  induction fuel as [|f IH]; intros t d cur g g' T D H; [discriminate H|]. cbn in H.
  apply rbind_ok in H. destruct H as [g1 [H1 H2]].
  pose proof (gfold_grows _ _ (fst d) (fun x a b _ => import_edge_grows cur x a b) _ _ H1) as G1.
  assert (G2 : grows (fun e => exists n, In n (snd d) /\ (e = (n, cur) \/ (under n (snd e) /\ uses (snd e) (fst e)))) g1 g').
  { refine (gfold_grows _ _ (snd d) _ _ _ H2). intros n a b I E. cbn in E. destruct (find_submodule lib n); [|discriminate E].
    destruct (in_graph n a) eqn:IG; [|discriminate E]. destruct (mget N.eqb n texts) as [t'|] eqn:T'; [|discriminate E].
    destruct (deps_of t') as [d'|] eqn:D'; [|discriminate E].
    refine (grows_trans _ _ _ _ _ (grows_edge (n, cur) a _) (IH t' d' n _ _ T' D' E)). apply mem_in. exact IG. }
  refine (grows_iff _ _ _ _ _ (grows_trans _ _ _ _ _ G1 G2)). intros [b a]. cbn. split.
  - intros [[x [I E]]|[n [I [E|[U S]]]]].
    + injection E as -> ->. split; [constructor|]. left. exists t, d. repeat split; assumption.
    + injection E as -> ->. split; [constructor|]. right. exists t, d. repeat split; assumption.
    + split; [|exact S]. refine (under_trans _ _ _ (UnderStep _ _ _ (UnderSelf _) _) U). exists t, d. repeat split; assumption.
  - intros [U S]. destruct (include_first _ _ U) as [->|[n [[t' [d' [T' [D' I]]]] U']]].
    + destruct S as [[t' [d' [T' [D' I]]]]|[t' [d' [T' [D' I]]]]]; rewrite T in T'; injection T' as <-; rewrite D in D'; injection D' as <-.
      * left. exists b. split; [exact I|reflexivity].
      * right. exists b. split; [exact I|left; reflexivity].
    + rewrite T in T'. injection T' as <-. rewrite D in D'. injection D' as <-. right. exists n. split; [exact I|]. right. split; assumption.
Qed.
Lemma own_deps_grows : forall fuel n g g', own_deps fuel n g = Ok g' -> grows (fun e => under n (snd e) /\ uses (snd e) (fst e)) g g'.
Proof.
  intros fuel n g g' H. unfold YgModel.own_deps in H. destruct (in_graph n g); [|discriminate H].
  destruct (mget N.eqb n texts) as [t|] eqn:T; [|discriminate H]. destruct (deps_of t) as [d|] eqn:D; [|discriminate H].
  exact (add_deps_grows fuel t d n g g' T D H).
Qed.
Lemma change_edge_grows : forall cur n g g', In cur (g_nodes g) -> add_change_edge lib cur n g = Ok g' -> grows (fun e => e = (cur, n)) g g'.
Proof.
  intros cur n g g' I H. unfold add_change_edge in H. destruct (module_exists lib n); [|discriminate H].
  destruct (in_graph n g); [|discriminate H]. injection H as <-. apply grows_edge. exact I.
Qed.
Lemma module_edges_grows : forall fuel m g g', add_module_edges deps_of lib texts fuel m g = Ok g' ->
  grows (fun e => (under (md_name m) (snd e) /\ uses (snd e) (fst e)) \/ (fst e = md_name m /\ In (snd e) (md_augs m ++ md_devs m))) g g'.
Proof.
  intros fuel m g g' H. unfold add_module_edges in H. apply rbind_ok in H. destruct H as [g1 [H1 H2]].
  pose proof (own_deps_grows _ _ _ _ H1) as G1.
  assert (IN : In (md_name m) (g_nodes g1)).
  { rewrite (proj1 G1). unfold YgModel.own_deps in H1. destruct (in_graph (md_name m) g) eqn:I; [|discriminate H1]. apply mem_in. exact I. }
  assert (G2 : grows (fun e => exists n, In n (md_augs m ++ md_devs m) /\ e = (md_name m, n)) g1 g').
  { revert g1 g' H1 H2 G1 IN. generalize (md_augs m ++ md_devs m) as l. induction l as [|n r IH]; intros a b H1 H2 G1 IN; cbn in H2.
    - injection H2 as <-. apply (grows_iff (fun _ => False)); [|apply grows_none]. intros e. split; [intros []|intros [x [[] _]]].
    - apply rbind_ok in H2. destruct H2 as [c [H2 H3]]. pose proof (change_edge_grows _ _ _ _ IN H2) as G.
      assert (IH' : forall l a b, In (md_name m) (g_nodes a) -> gfold (add_change_edge lib (md_name m)) l a = Ok b ->
        grows (fun e => exists n, In n l /\ e = (md_name m, n)) a b).
      { clear. induction l as [|n r IH]; intros a b IN H; cbn in H.
        - injection H as <-. apply (grows_iff (fun _ => False)); [|apply grows_none]. intros e. split; [intros []|intros [x [[] _]]].
        - apply rbind_ok in H. destruct H as [c [H2 H3]]. pose proof (change_edge_grows _ _ _ _ IN H2) as G.
          assert (IN' : In (md_name m) (g_nodes c)) by (rewrite (proj1 G); exact IN).
          refine (grows_iff _ _ _ _ _ (grows_trans _ _ _ _ _ G (IH _ _ IN' H3))). intros e. split.
          + intros [E|[x [X E]]]; [exists n; split; [left; reflexivity|exact E]|exists x; split; [right; exact X|exact E]].
          + intros [x [[<-|X] E]]; [left; exact E|right; exists x; split; assumption]. }
      assert (IN' : In (md_name m) (g_nodes c)) by (rewrite (proj1 G); exact IN).
      refine (grows_iff _ _ _ _ _ (grows_trans _ _ _ _ _ G (IH' _ _ _ IN' H3))). intros e. split.
      + intros [E|[x [X E]]]; [exists n; split; [left; reflexivity|exact E]|exists x; split; [right; exact X|exact E]].
      + intros [x [[<-|X] E]]; [left; exact E|right; exists x; split; assumption]. }
  refine (grows_iff _ _ _ _ _ (grows_trans _ _ _ _ _ G1 G2)). intros [b a]. cbn. split.
  - intros [H|[n [I E]]]; [left; exact H|right]. injection E as -> ->. split; [reflexivity|exact I].
  - intros [H|[-> I]]; [left; exact H|right]. exists a. split; [exact I|reflexivity].
Qed.
Lemma to_graph_grows : forall fuel g, to_graph deps_of lib texts fuel = Ok g ->
  grows (fun e => depends (snd e) (fst e)) (Graph (lib_nodes lib) []) g.
Proof.
  intros fuel g H. unfold to_graph in H.
  refine (grows_iff _ _ _ _ _ (gfold_grows _ (fun s e => (exists m, In m (ms_mods s) /\
     ((under (md_name m) (snd e) /\ uses (snd e) (fst e)) \/ (fst e = md_name m /\ In (snd e) (md_augs m ++ md_devs m)))) \/
     (exists i, In i (flat_map snd (ms_imps s)) /\ under (im_name i) (snd e) /\ uses (snd e) (fst e))) lib _ _ _ H)).
  - intros [b a]. cbn. unfold YgSpec.depends. split.
    + intros [s [I [[m [J [[U S]|[-> C]]]]|[i [J [U S]]]]]].
      * left. split; [|exact S]. induction U as [|x y U IH Q]; [constructor; exists s; split; assumption|].
        clear S. assert (CX : counts x); [|exact (CountsSub _ _ _ _ _ CX Q)].
        clear IH Q. induction U as [|x z U IH Q]; [constructor; exists s; split; assumption|exact (CountsSub _ _ _ _ _ IH Q)].
      * right. exists m. repeat split; [exists s; split; assumption|exact C].
      * left. split; [|exact S]. apply in_flat_map in J. destruct J as [[n l] [J1 J2]]. clear S.
        induction U as [|x y U IH Q]; [constructor; exists s, n, l; repeat split; assumption|exact (CountsSub _ _ _ _ _ IH Q)].
    + intros [[C S]|[m [[s [I J]] [<- C]]]].
      * assert (R : forall x, counts x -> exists s, In s lib /\ ((exists m, In m (ms_mods s) /\ under (md_name m) x) \/
                    (exists i, In i (flat_map snd (ms_imps s)) /\ under (im_name i) x))).
        { clear. intros x C. induction C as [m [s [I J]]|i [s [n [l [I [J K]]]]]|x y C [s [I [[m [J U]]|[i [J U]]]]] Q].
          - exists s. split; [exact I|left]. exists m. split; [exact J|constructor].
          - exists s. split; [exact I|right]. exists i. split; [apply in_flat_map; exists (n, l); split; assumption|constructor].
          - exists s. split; [exact I|left]. exists m. split; [exact J|exact (UnderStep _ _ _ U Q)].
          - exists s. split; [exact I|right]. exists i. split; [exact J|exact (UnderStep _ _ _ U Q)]. }
        destruct (R a C) as [s [I [[m [J U]]|[i [J U]]]]]; exists s; (split; [exact I|]).
        -- left. exists m. split; [exact J|left; split; assumption].
        -- right. exists i. repeat split; assumption.
      * exists s. split; [exact I|left]. exists m. split; [exact J|right]. split; [reflexivity|exact C].
  - intros s a b I E. apply rbind_ok in E. destruct E as [c [E1 E2]].
    refine (grows_trans _ _ _ _ _ (gfold_grows _ _ _ (fun m x y _ => module_edges_grows fuel m x y) _ _ E1)
              (gfold_grows _ (fun i e => under (im_name i) (snd e) /\ uses (snd e) (fst e)) _ (fun i x y _ => own_deps_grows fuel (im_name i) x y) _ _ E2)).
Qed.
End Graph.

(* ---- recursion over includes ---- *)
Lemma gfold_ext : forall {A} (f f' : A -> graph -> gres graph) l, (forall x g, In x l -> f x g = f' x g) ->
  forall g, gfold f l g = gfold f' l g.
Proof.
  intros A f f'. induction l as [|x r IH]; intros E g; cbn; [reflexivity|]. rewrite (E x g (or_introl eq_refl)).
  destruct (f' x g); cbn; try reflexivity. apply IH. intros y h Y. apply E. right. exact Y.
Qed.
Lemma gfold_ends : forall {A} (f : A -> graph -> gres graph) l, (forall x g, In x l -> f x g <> Diverge) ->
  forall g, gfold f l g <> Diverge.
Proof.
  intros A f. induction l as [|x r IH]; intros E g; cbn; [discriminate|]. pose proof (E x g (or_introl eq_refl)) as X.
  destruct (f x g); cbn; try discriminate; [|congruence]. apply IH. intros y h Y. apply E. right. exact Y.
Qed.
Lemma gfold_each : forall {A} (f : A -> graph -> gres graph) l g g', gfold f l g = Ok g' ->
  forall x, In x l -> exists a b, f x a = Ok b.
Proof.
  intros A f. induction l as [|x r IH]; intros g g' H y I; [destruct I|]. cbn in H. apply rbind_ok in H. destruct H as [h [H1 H2]].
  destruct I as [<-|I]; [exists g, h; exact H1|exact (IH h g' H2 y I)].
Qed.
Lemma rbind_ends : forall {E A B} (x : res E A) (f : A -> res E B), x <> Diverge -> (forall a, f a <> Diverge) -> rbind x f <> Diverge.
Proof. intros E A B x f H K. destruct x; cbn; try discriminate; [apply K|congruence]. Qed.

Section Ends.
Variable deps_of : octets -> option (list name * list name).
Variable lib : library.
Variable texts : list (name * octets).
Notation add_deps := (add_deps deps_of lib texts).
Notation own_deps := (own_deps deps_of lib texts).
Variable rank : name -> nat.
Hypothesis RK : ranked deps_of texts rank.
Lemma import_edge_ends : forall cur n g, add_import_edge lib cur n g <> Diverge.
Proof. intros cur n g. unfold add_import_edge. destruct (module_exists lib n); [destruct (in_graph n g)|]; discriminate. Qed.
Lemma change_edge_ends : forall cur n g, add_change_edge lib cur n g <> Diverge.
Proof. intros cur n g. unfold add_change_edge. destruct (module_exists lib n); [destruct (in_graph n g)|]; discriminate. Qed.
Lemma add_deps_ends : forall fuel t d cur g, mget N.eqb cur texts = Some t -> deps_of t = Some d -> (rank cur < fuel)%nat ->
  add_deps fuel d cur g <> Diverge.
Proof.
  induction fuel as [|f IH]; intros t d cur g T D L; [lia|]. cbn. apply rbind_ends.
  - apply gfold_ends. intros x h _. apply import_edge_ends.
  - intros a. apply gfold_ends. intros n h I. destruct (find_submodule lib n); [|discriminate].
    destruct (in_graph n h); [|discriminate]. destruct (mget N.eqb n texts) as [t'|] eqn:T'; [|discriminate].
    destruct (deps_of t') as [d'|] eqn:D'; [|discriminate]. apply (IH t' d' n _ T' D').
    assert (Q : (rank n < rank cur)%nat) by (apply RK; exists t, d; repeat split; assumption). lia.
Qed.
Lemma add_deps_fuel : forall fuel t d cur g fuel', mget N.eqb cur texts = Some t -> deps_of t = Some d -> (rank cur < fuel)%nat ->
  (fuel <= fuel')%nat -> add_deps fuel' d cur g = add_deps fuel d cur g.
Proof.
  induction fuel as [|f IH]; intros t d cur g fuel' T D L M; [lia|]. destruct fuel' as [|f']; [lia|]. cbn.
  destruct (gfold (add_import_edge lib cur) (fst d) g) as [h|e| |]; cbn; try reflexivity.
  apply gfold_ext. intros n x I. destruct (find_submodule lib n); [|reflexivity].
  destruct (in_graph n x); [|reflexivity]. destruct (mget N.eqb n texts) as [t'|] eqn:T'; [|reflexivity].
  destruct (deps_of t') as [d'|] eqn:D'; [|reflexivity]. apply (IH t' d' n _ _ T' D'); [|lia].
  assert (Q : (rank n < rank cur)%nat) by (apply RK; exists t, d; repeat split; assumption). lia.
Qed.
Variable fuel : nat.
Hypothesis FU : forall a, In a (map fst texts) -> (rank a < fuel)%nat.
Lemma own_deps_ends : forall n g, own_deps fuel n g <> Diverge.
Proof.
  intros n g. unfold YgModel.own_deps. destruct (in_graph n g); [|discriminate].
  destruct (mget N.eqb n texts) as [t|] eqn:T; [|discriminate]. destruct (deps_of t) as [d|] eqn:D; [|discriminate].
  exact (add_deps_ends fuel t d n g T D (FU n (mget_Some_in _ Neqb_spec _ _ _ T))).
Qed.
Lemma own_deps_fuel : forall n g fuel', (fuel <= fuel')%nat -> own_deps fuel' n g = own_deps fuel n g.
Proof.
  intros n g fuel' L. unfold YgModel.own_deps. destruct (in_graph n g); [|reflexivity].
  destruct (mget N.eqb n texts) as [t|] eqn:T; [|reflexivity]. destruct (deps_of t) as [d|] eqn:D; [|reflexivity].
  exact (add_deps_fuel fuel t d n g fuel' T D (FU n (mget_Some_in _ Neqb_spec _ _ _ T)) L).
Qed.
Lemma to_graph_ends : to_graph deps_of lib texts fuel <> Diverge.
Proof.
  unfold to_graph. apply gfold_ends. intros s g _. apply rbind_ends.
  - apply gfold_ends. intros m h _. unfold add_module_edges. apply rbind_ends; [apply own_deps_ends|].
    intros a. apply gfold_ends. intros x y _. apply change_edge_ends.
  - intros a. apply gfold_ends. intros i h _. apply own_deps_ends.
Qed.
Lemma to_graph_fuel : forall fuel', (fuel <= fuel')%nat -> to_graph deps_of lib texts fuel' = to_graph deps_of lib texts fuel.
Proof.
  intros fuel' L. unfold to_graph. apply gfold_ext. intros s g _.
  rewrite (gfold_ext (add_module_edges deps_of lib texts fuel') (add_module_edges deps_of lib texts fuel)).
  - destruct (gfold (add_module_edges deps_of lib texts fuel) (ms_mods s) g); cbn; try reflexivity.
    apply gfold_ext. intros i h _. apply own_deps_fuel. exact L.
  - intros m h _. unfold add_module_edges. rewrite (own_deps_fuel _ _ _ L). reflexivity.
Qed.
End Ends.

Section Cycle.
Variable deps_of : octets -> option (list name * list name).
Variable lib : library.
Variable texts : list (name * octets).
Variable P : name -> Prop.
Hypothesis PC : forall a, P a -> exists b, P b /\ text_includes deps_of texts a b.
Lemma cycle_deps : forall fuel t d cur g g', mget N.eqb cur texts = Some t -> deps_of t = Some d -> P cur ->
  add_deps deps_of lib texts fuel d cur g <> Ok g'.
Proof.
  induction fuel as [|f IH]; intros t d cur g g' T D Q H; [discriminate H|]. cbn in H. apply rbind_ok in H. destruct H as [h [_ H]].
  destruct (PC cur Q) as [b [Pb [t' [d' [T' [D' I]]]]]]. rewrite T in T'. injection T' as <-. rewrite D in D'. injection D' as <-.
  destruct (gfold_each _ _ _ _ H b I) as [x [y E]]. cbn in E. destruct (find_submodule lib b); [|discriminate E].
  destruct (in_graph b x); [|discriminate E]. destruct (mget N.eqb b texts) as [t'|] eqn:T'; [|discriminate E].
  destruct (deps_of t') as [d'|] eqn:D'; [|discriminate E]. exact (IH t' d' b _ _ T' D' Pb E).
Qed.
Lemma cycle_graph : forall fuel m g, has_module lib m -> P (md_name m) -> to_graph deps_of lib texts fuel <> Ok g.
Proof.
  intros fuel m g [s [I J]] Q H. unfold to_graph in H. destruct (gfold_each _ _ _ _ H s I) as [x [y E]]. cbn in E.
  apply rbind_ok in E. destruct E as [z [E _]]. destruct (gfold_each _ _ _ _ E m J) as [u [w F]]. unfold add_module_edges in F.
  apply rbind_ok in F. destruct F as [v [F _]]. unfold own_deps in F. destruct (in_graph (md_name m) u); [|discriminate F].
  destruct (mget N.eqb (md_name m) texts) as [t|] eqn:T; [|discriminate F]. destruct (deps_of t) as [d|] eqn:D; [|discriminate F].
  exact (cycle_deps fuel t d _ _ _ T D Q F).
Qed.
End Cycle.

(* ---- the graph and panics ---- *)
Section Safe.
Variable deps_of : octets -> option (list name * list name).
Variable lib : library.
Variable texts : list (name * octets).
Hypothesis TX : forall n, In n (lib_nodes lib) -> mget N.eqb n texts <> None.
Notation here g := (g_nodes g = lib_nodes lib).
Lemma gfold_safe : forall {A} (f : A -> graph -> gres graph) l,
  (forall x g, In x l -> here g -> f x g <> Panic /\ forall g', f x g = Ok g' -> here g') ->
  forall g, here g -> gfold f l g <> Panic /\ forall g', gfold f l g = Ok g' -> here g'.
Proof.
  intros A f. induction l as [|x r IH]; intros F g H; cbn; [split; [discriminate|intros g' E; injection E as <-; exact H]|].
  destruct (F x g (or_introl eq_refl) H) as [P Q]. destruct (f x g) as [h|e| |]; cbn; try (split; [congruence|discriminate]).
  apply IH; [intros y k Y; apply F; right; exact Y|exact (Q h eq_refl)].
Qed.
Lemma rbind_safe : forall (x : gres graph) (f : graph -> gres graph), x <> Panic /\ (forall g', x = Ok g' -> here g') ->
  (forall g, here g -> f g <> Panic /\ forall g', f g = Ok g' -> here g') ->
  rbind x f <> Panic /\ forall g', rbind x f = Ok g' -> here g'.
Proof.
  intros x f [P Q] F. destruct x as [h|e| |]; cbn; try (split; [congruence|discriminate]). apply F. apply Q. reflexivity.
Qed.
Lemma edge_safe : forall e g, here g -> Ok (E := gerr) (add_edge e g) <> Panic /\ forall g', Ok (E := gerr) (add_edge e g) = Ok g' -> here g'.
Proof. intros e g H. split; [discriminate|]. intros g' E. injection E as <-. rewrite add_edge_nodes. exact H. Qed.
Lemma add_deps_safe : forall fuel d cur g, here g -> add_deps deps_of lib texts fuel d cur g <> Panic /\
  forall g', add_deps deps_of lib texts fuel d cur g = Ok g' -> here g'.
Proof.
  induction fuel as [|f IH]; intros d cur g H; cbn; [split; discriminate|]. apply rbind_safe.
  - apply gfold_safe; [|exact H]. intros n h _ K. unfold add_import_edge. destruct (module_exists lib n); [|split; discriminate].
    destruct (in_graph n h); [|split; discriminate]. apply edge_safe. exact K.
  - intros h K. apply gfold_safe; [|exact K]. intros n k _ J. destruct (find_submodule lib n); [|split; discriminate].
    destruct (in_graph n k) eqn:M; [|split; discriminate]. unfold in_graph in M. apply mem_in in M. rewrite J in M.
    destruct (mget N.eqb n texts) as [t|] eqn:T; [|exfalso; exact (TX n M T)]. destruct (deps_of t); [|split; discriminate].
    apply IH. rewrite add_edge_nodes. exact J.
Qed.
Lemma own_deps_safe : forall fuel n g, In n (lib_nodes lib) -> here g -> own_deps deps_of lib texts fuel n g <> Panic /\
  forall g', own_deps deps_of lib texts fuel n g = Ok g' -> here g'.
Proof.
  intros fuel n g I H. unfold own_deps. replace (in_graph n g) with true by (symmetry; unfold in_graph; apply mem_in; rewrite H; exact I).
  destruct (mget N.eqb n texts); [|split; discriminate]. destruct (deps_of o); [|split; discriminate]. apply add_deps_safe. exact H.
Qed.
Lemma to_graph_safe : forall fuel, to_graph deps_of lib texts fuel <> Panic.
Proof.
  intros fuel. destruct (sets_nodes lib [] (NoDup_nil _)) as [_ [_ [NM [NI _]]]]. unfold to_graph.
  refine (proj1 (gfold_safe _ _ _ (Graph (lib_nodes lib) []) eq_refl)). intros s g S H. apply rbind_safe.
  - apply gfold_safe; [|exact H]. intros m h M K. unfold add_module_edges. apply rbind_safe.
    + apply own_deps_safe; [|exact K]. apply NM. exists s. split; assumption.
    + intros k J. apply gfold_safe; [|exact J]. intros n x _ X. unfold add_change_edge. destruct (module_exists lib n); [|split; discriminate].
      destruct (in_graph n x); [|split; discriminate]. apply edge_safe. exact X.
  - intros h K. apply gfold_safe; [|exact K]. intros i x I X. apply own_deps_safe; [|exact X]. apply NI.
    apply in_flat_map in I. destruct I as [[n l] [I1 I2]]. exists s, n, l. repeat split; assumption.
Qed.
End Safe.

(* ---- sorting ---- *)
Lemma insert_perm : forall x l, Permutation (insert_ref x l) (x :: l).
Proof.
  intros x. induction l as [|y r IH]; cbn; [reflexivity|]. destruct (rf_name x <=? rf_name y); [reflexivity|].
  rewrite IH. apply perm_swap.
Qed.
Lemma sort_perm : forall l, Permutation (sort_refs l) l.
Proof. induction l as [|x r IH]; cbn; [reflexivity|]. rewrite insert_perm, IH. reflexivity. Qed.
Definition by_name (x y : sref) : Prop := rf_name x <= rf_name y.
Lemma insert_sorted : forall x l, Sorted by_name l -> Sorted by_name (insert_ref x l).
Proof.
  intros x. induction l as [|y r IH]; intros H; cbn; [repeat constructor|]. destruct (rf_name x <=? rf_name y) eqn:E.
  - constructor; [exact H|]. constructor. unfold by_name. lia.
  - inversion H as [|a b H1 H2]; subst. constructor; [exact (IH H1)|]. destruct r as [|z r]; cbn.
    + constructor. unfold by_name. lia.
    + destruct (rf_name x <=? rf_name z); constructor; [unfold by_name; lia|]. inversion H2; subst. assumption.
Qed.
Lemma sort_sorted : forall l, Sorted by_name (sort_refs l).
Proof. induction l as [|x r IH]; cbn; [constructor|]. apply insert_sorted. exact IH. Qed.

(* ---- neighbours ---- *)
Lemma sources_in : forall g n b, In b (sources g n) <-> In (b, n) (g_edges g).
Proof.
  intros g n b. unfold sources. rewrite in_map_iff. split.
  - intros [[x y] [E H]]. apply filter_In in H. cbn in *. destruct H as [H Q]. replace n with y by lia. subst. exact H.
  - intros H. exists (b, n). split; [reflexivity|]. apply filter_In. split; [exact H|cbn; lia].
Qed.
Lemma no_targets_in : forall g n, no_targets g n = true <-> forall a, ~ In (n, a) (g_edges g).
Proof.
  intros g n. unfold no_targets. rewrite negb_true_iff. split.
  - intros H a I. assert (X : existsb (fun e => fst e =? n) (g_edges g) = true); [|congruence].
    apply existsb_exists. exists (n, a). split; [exact I|cbn; lia].
  - intros H. destruct (existsb (fun e => fst e =? n) (g_edges g)) eqn:E; [|reflexivity]. exfalso.
    apply existsb_exists in E. destruct E as [[b a] [I Q]]. cbn in Q. apply (H a). replace n with b by lia. exact I.
Qed.
Lemma sources_nodup : forall g n, NoDup (g_edges g) -> NoDup (sources g n).
Proof.
  intros g n D. unfold sources. revert D. induction (g_edges g) as [|[b a] r IH]; intros D; cbn; [constructor|].
  apply NoDup_cons_iff in D. destruct D as [D1 D2]. destruct (a =? n) eqn:E; cbn; [|exact (IH D2)].
  constructor; [|exact (IH D2)]. intros I. apply in_map_iff in I. destruct I as [[x y] [Q I]]. apply filter_In in I. cbn in *.
  destruct I as [I P]. apply D1. replace a with y by lia. subst. exact I.
Qed.

(* ---- registration ---- *)
Section Register.
Variable deps_of : octets -> option (list name * list name).
Variable subject_of : name -> N.
Variable server : history -> call -> option answer.
Variable lib : library.
Variable texts : list (name * octets).
Notation register_one := (register_one subject_of server).
Notation register_node := (register_node subject_of server lib texts).
Notation register_all := (register_all subject_of server lib texts).

(* what is supplied was registered *)
Definition backed (st : rst) : Prop :=
  forall n x, mget N.eqb n (r_supplied st) = Some x -> rf_name x = n /\ resolved (r_log st) x.
(* every reference in the log goes back *)
Definition sound_log (l : entries) : Prop :=
  forall l1 n s r l2, l = l1 ++ (n, s, r) :: l2 ->
    mget N.eqb n texts = Some (sc_text s) /\ sc_feats s = feats_of lib n /\ Sorted by_name (sc_refs s) /\
    forall x, In x (sc_refs s) -> resolved l1 x.
Lemma refs_of_ok : forall sup l refs, refs_of sup l = Ok refs -> Forall2 (fun n x => mget N.eqb n sup = Some x) l refs.
Proof.
  intros sup. induction l as [|n r IH]; intros refs H; cbn in H; [injection H as <-; constructor|].
  destruct (mget N.eqb n sup) as [x|] eqn:E; [|discriminate H]. destruct (refs_of sup r) as [q| | |]; try discriminate H.
  injection H as <-. constructor; [exact E|apply IH; reflexivity].
Qed.
Lemma refs_of_all : forall sup l, (forall n, In n l -> In n (map fst sup)) -> exists refs, refs_of sup l = Ok refs.
Proof.
  intros sup. induction l as [|n r IH]; intros H; cbn; [eexists; reflexivity|].
  destruct (mget N.eqb n sup) as [x|] eqn:E.
  - destruct (IH (fun m I => H m (or_intror I))) as [q ->]. cbn. eexists. reflexivity.
  - exfalso. exact (proj1 (mget_None_notin _ Neqb_spec _ _) E (H n (or_introl eq_refl))).
Qed.
Lemma forall2_in_r : forall {A B} (R : A -> B -> Prop) l l' y, Forall2 R l l' -> In y l' -> exists x, In x l /\ R x y.
Proof.
  intros A B R l l' y H. induction H as [|a b l l' Q H IH]; intros I; [destruct I|].
  destruct I as [<-|I]; [exists a; split; [left; reflexivity|exact Q]|]. destruct (IH I) as [x [X1 X2]]. exists x. split; [right; exact X1|exact X2].
Qed.
(* what one successful registration does *)
Lemma node_ok : forall n l st st' r, register_node n l st = (st', Ok r) ->
  exists refs t, refs_of (r_supplied st) l = Ok refs /\ mget N.eqb n texts = Some t /\
    let s := Schema t (sort_refs refs) (feats_of lib n) in
    r_log st' = r_log st ++ [(n, s, r)] /\
    r_supplied st' = mset N.eqb n (Ref n (or0 (rg_subject r)) (or0 (rg_version r))) (r_supplied st) /\
    register_one (r_hist st) n s = (r_hist st', Ok r).
Proof.
  intros n l st st' r H. unfold YgModel.register_node in H. destruct (refs_of (r_supplied st) l) as [refs|e| |]; try discriminate H.
  destruct (mget N.eqb n texts) as [t|]; [|discriminate H]. exists refs, t. split; [reflexivity|]. split; [reflexivity|].
  cbv zeta. destruct (register_one (r_hist st) n (Schema t (sort_refs refs) (feats_of lib n))) as [h [r'|e| |]] eqn:E; try discriminate H.
  injection H as <- <-. repeat split.
Qed.
Lemma node_fail : forall n l st st' x, register_node n l st = (st', x) -> (forall r, x <> Ok r) ->
  r_log st' = r_log st /\ r_supplied st' = r_supplied st.
Proof.
  intros n l st st' x H F. unfold YgModel.register_node in H.
  destruct (refs_of (r_supplied st) l) as [refs|e| |]; try (injection H as <- <-; split; reflexivity).
  destruct (mget N.eqb n texts) as [t|]; [|injection H as <- <-; split; reflexivity].
  destruct (register_one (r_hist st) n (Schema t (sort_refs refs) (feats_of lib n))) as [h [r'|e| |]]; injection H as <- <-; try (split; reflexivity).
  exfalso. exact (F r' eq_refl).
Qed.
Lemma resolved_more : forall a b x, resolved a x -> resolved (a ++ b) x.
Proof. intros a b x [s [r [I Q]]]. exists s, r. split; [apply in_or_app; left; exact I|exact Q]. Qed.
Lemma sound_snoc : forall l n s r, sound_log l -> mget N.eqb n texts = Some (sc_text s) -> sc_feats s = feats_of lib n ->
  Sorted by_name (sc_refs s) -> (forall x, In x (sc_refs s) -> resolved l x) -> sound_log (l ++ [(n, s, r)]).
Proof.
  intros l n s r S T F O R l1 m s' r' l2 E. destruct l2 as [|z l2] using rev_ind.
  - apply app_inj_tail in E. destruct E as [-> E]. injection E as -> -> ->. repeat split; assumption.
  - rewrite app_comm_cons, app_assoc in E. apply app_inj_tail in E. destruct E as [E _]. exact (S _ _ _ _ _ E).
Qed.
Lemma node_keeps : forall n l st st' x, backed st -> sound_log (r_log st) -> register_node n l st = (st', x) ->
  backed st' /\ sound_log (r_log st').
Proof.
  intros n l st st' x B S H. destruct x as [r|e| |];
    try (destruct (node_fail _ _ _ _ _ H) as [E1 E2]; [discriminate|]; unfold backed; rewrite E1, E2; split; assumption).
  destruct (node_ok _ _ _ _ _ H) as [refs [t [R [T [E1 [E2 _]]]]]]. split.
  - intros m y M. rewrite E2, (mget_mset _ Neqb_spec) in M. rewrite E1. destruct (m =? n) eqn:Q.
    + injection M as <-. cbn. split; [lia|]. exists (Schema t (sort_refs refs) (feats_of lib n)), r. cbn.
      split; [apply in_or_app; right; left; reflexivity|split; reflexivity].
    + destruct (B m y M) as [B1 B2]. split; [exact B1|apply resolved_more; exact B2].
  - rewrite E1. apply sound_snoc; [exact S|exact T|reflexivity|apply sort_sorted|]. cbn. intros y Y.
    apply (Permutation_in _ (sort_perm refs)) in Y. destruct (forall2_in_r _ _ _ _ (refs_of_ok _ _ _ R) Y) as [m [_ M]].
    exact (proj2 (B m y M)).
Qed.
Lemma all_keeps : forall g l st st' x, backed st -> sound_log (r_log st) -> register_all g l st = (st', x) ->
  backed st' /\ sound_log (r_log st').
Proof.
  intros g. induction l as [|n r IH]; intros st st' x B S H; cbn in H; [injection H as <- _; split; assumption|].
  destruct (register_node n (sources g n) st) as [st1 [y|e| |]] eqn:E; destruct (node_keeps _ _ _ _ _ B S E) as [B1 S1];
    try (injection H as <- _; split; assumption). exact (IH _ _ _ B1 S1 H).
Qed.
(* the log of a complete pass: the order, each with the references of its edges *)
Lemma node_names : forall n l st st' r, backed st -> register_node n l st = (st', Ok r) ->
  exists s, r_log st' = r_log st ++ [(n, s, r)] /\ Permutation (ref_names s) l.
Proof.
  intros n l st st' r B H. destruct (node_ok _ _ _ _ _ H) as [refs [t [R [T [E1 [E2 _]]]]]].
  eexists. split; [exact E1|]. unfold ref_names. cbn. rewrite (Permutation_map rf_name (sort_perm refs)).
  apply refs_of_ok in R. replace (map rf_name refs) with l; [reflexivity|].
  revert B R. clear. intros B R. induction R as [|a b l l' Q R IH]; [reflexivity|]. cbn. rewrite IH, (proj1 (B a b Q)). reflexivity.
Qed.
Lemma all_names : forall g l st st', backed st -> sound_log (r_log st) -> register_all g l st = (st', Ok tt) ->
  exists more, r_log st' = r_log st ++ more /\ map e_of more = l /\
    forall n s r, In (n, s, r) more -> Permutation (ref_names s) (sources g n).
Proof.
  intros g. induction l as [|n r IH]; intros st st' B S H; cbn in H.
  - injection H as <-. exists []. rewrite app_nil_r. repeat split. intros n s r [].
  - destruct (register_node n (sources g n) st) as [st1 [y|e| |]] eqn:E; try discriminate H.
    destruct (node_keeps _ _ _ _ _ B S E) as [B1 S1]. destruct (node_names _ _ _ _ _ B E) as [s [L P]].
    destruct (IH _ _ B1 S1 H) as [more [M1 [M2 M3]]]. exists ((n, s, y) :: more). rewrite M1, L, <- app_assoc. cbn. rewrite M2.
    repeat split. intros m s' r' [I|I]; [injection I as <- <- <-; exact P|exact (M3 m s' r' I)].
Qed.
(* the unwraps are safe when sources come first *)
Lemma keys_supplied : forall n (x : sref) l m, In m (map fst (mset N.eqb n x l)) <-> m = n \/ In m (map fst l).
Proof.
  intros n x l m. induction l as [|[k y] r IH]; cbn; [intuition|]. destruct (n =? k) eqn:E; cbn.
  - replace k with n by lia. intuition.
  - rewrite IH. intuition.
Qed.
Notation has_ids := (gives_ids server).
Lemma one_safe : forall h n s, has_ids -> snd (register_one h n s) <> Panic.
Proof.
  intros h n s ID. unfold YgModel.register_one, ask. destruct (server h (CRegister (subject_of n) s)) as [[|x|r]|] eqn:E.
  3: { destruct (rg_version r) eqn:V; [discriminate|]. pose proof (ID _ _ _ E V) as I. destruct (rg_id r); [|congruence].
       repeat match goal with |- context [match ?c with _ => _ end] => destruct c end; discriminate. }
  all: repeat match goal with |- context [match ?c with _ => _ end] => destruct c end; discriminate.
Qed.
Lemma node_safe : forall n l st, has_ids -> (forall m, In m l -> In m (map fst (r_supplied st))) -> mget N.eqb n texts <> None ->
  snd (register_node n l st) <> Panic.
Proof.
  intros n l st ID H T. unfold YgModel.register_node. destruct (refs_of_all _ _ H) as [refs ->].
  destruct (mget N.eqb n texts) as [t|]; [|congruence]. pose proof (one_safe (r_hist st) n (Schema t (sort_refs refs) (feats_of lib n)) ID) as Q.
  destruct (register_one (r_hist st) n (Schema t (sort_refs refs) (feats_of lib n))) as [h [r|e| |]]; cbn in *; congruence.
Qed.
Lemma node_supplied : forall n l st st' r, register_node n l st = (st', Ok r) -> forall m, In m (map fst (r_supplied st')) <-> m = n \/ In m (map fst (r_supplied st)).
Proof. intros n l st st' r H m. destruct (node_ok _ _ _ _ _ H) as [refs [t [_ [_ [_ [E _]]]]]]. rewrite E. apply keys_supplied. Qed.
Lemma all_supplied : forall g l st st', register_all g l st = (st', Ok tt) ->
  forall m, In m (map fst (r_supplied st')) <-> In m l \/ In m (map fst (r_supplied st)).
Proof.
  intros g. induction l as [|n r IH]; intros st st' H m; cbn in H; [injection H as <-; cbn; tauto|].
  destruct (register_node n (sources g n) st) as [st1 [y|e| |]] eqn:E; try discriminate H.
  rewrite (IH _ _ H), (node_supplied _ _ _ _ _ E). cbn. intuition.
Qed.
Lemma all_safe : forall g order, has_ids -> (forall n, In n order -> mget N.eqb n texts <> None) ->
  (forall b a, In (b, a) (g_edges g) -> before order b a) -> NoDup order ->
  forall l done st, order = done ++ l -> (forall m, In m done -> In m (map fst (r_supplied st))) ->
  snd (register_all g l st) <> Panic.
Proof.
  intros g order ID T B D. induction l as [|n r IH]; intros done st E H; cbn; [discriminate|].
  assert (SO : forall m, In m (sources g n) -> In m (map fst (r_supplied st))).
  { intros m M. apply sources_in in M. apply H. destruct (B _ _ M) as [l1 [l2 [l3 F]]].
    assert (Q : done = l1 ++ m :: l2).
    { rewrite E in F. rewrite app_comm_cons, app_assoc in F.
      assert (ND : NoDup (done ++ n :: r)) by (rewrite <- E; exact D). revert F ND. clear. revert done.
      generalize (l1 ++ m :: l2) as p. induction p as [|x p IHp]; intros done F ND.
      - destruct done as [|y done]; [reflexivity|]. cbn in F. injection F as -> F. exfalso. apply NoDup_cons_iff in ND. apply (proj1 ND).
        apply in_or_app. right. left. reflexivity.
      - destruct done as [|y done]; cbn in F.
        + injection F as <- F. exfalso. rewrite F in ND. cbn in ND. apply NoDup_cons_iff in ND. apply (proj1 ND). apply in_or_app. right. left. reflexivity.
        + injection F as -> F. f_equal. apply IHp; [exact F|]. cbn in ND. apply NoDup_cons_iff in ND. exact (proj2 ND). }
    rewrite Q. apply in_or_app. right. left. reflexivity. }
  assert (TN : mget N.eqb n texts <> None) by (apply T; rewrite E; apply in_or_app; right; left; reflexivity).
  pose proof (node_safe n (sources g n) st ID SO TN) as S1.
  destruct (register_node n (sources g n) st) as [st1 [y|e| |]] eqn:F; cbn in *; try discriminate; [|congruence].
  apply (IH (done ++ [n])); [rewrite <- app_assoc; exact E|]. intros m M. apply (node_supplied _ _ _ _ _ F).
  apply in_snoc in M. destruct M as [M|M]; [right; exact (H m M)|left; exact M].
Qed.
(* a node without a text *)
Lemma all_textless : forall g n l st st', In n l -> mget N.eqb n texts = None -> register_all g l st <> (st', Ok tt).
Proof.
  intros g n. induction l as [|m r IH]; intros st st' I T H; [destruct I|]. cbn in H.
  destruct (register_node m (sources g m) st) as [st1 [y|e| |]] eqn:E; try discriminate H.
  destruct I as [<-|I]; [|exact (IH _ _ I T H)]. destruct (node_ok _ _ _ _ _ E) as [refs [t [_ [T' _]]]]. rewrite T in T'. discriminate T'.
Qed.

(* where answers come from *)
Lemma one_ok : forall h n s h' r, register_one h n s = (h', Ok r) ->
  exists c h1, server h1 c = Some (AReg r).
Proof.
  intros h n s h' r H. unfold YgModel.register_one, ask in H.
  repeat match type of H with context [match server ?a ?b with _ => _ end] => destruct (server a b) as [[| |]|] eqn:?
         | context [match rg_version ?a with _ => _ end] => destruct (rg_version a)
         | context [match rg_id ?a with _ => _ end] => destruct (rg_id a) end;
    try discriminate H; injection H as <- <-; eexists; eexists; eassumption.
Qed.
Definition answered (l : entries) : Prop := forall n s r, In (n, s, r) l -> exists c h, server h c = Some (AReg r).
Lemma node_answered : forall n l st st' x, answered (r_log st) -> register_node n l st = (st', x) -> answered (r_log st').
Proof.
  intros n l st st' x A H. destruct x as [r|e| |]; try (destruct (node_fail _ _ _ _ _ H) as [-> _]; [discriminate|exact A]).
  destruct (node_ok _ _ _ _ _ H) as [refs [t [_ [_ [E1 [_ E3]]]]]]. rewrite E1. intros m s q I. apply in_snoc in I.
  destruct I as [I|I]; [exact (A m s q I)|]. injection I as -> -> ->. exact (one_ok _ _ _ _ _ E3).
Qed.
Lemma all_answered : forall g l st st' x, answered (r_log st) -> register_all g l st = (st', x) -> answered (r_log st').
Proof.
  intros g. induction l as [|n r IH]; intros st st' x A H; cbn in H; [injection H as <- _; exact A|].
  destruct (register_node n (sources g n) st) as [st1 [y|e| |]] eqn:E; pose proof (node_answered _ _ _ _ _ A E) as A1;
    try (injection H as <- _; exact A1). exact (IH _ _ _ A1 H).
Qed.

(* refusals are overridden *)
Lemma forced_app : forall h b, overridden h -> overridden b -> overridden (h ++ b).
Proof.
  intros h b H B. intros h1 u s a h2 E N.
  revert h H E. induction h1 as [|x h1 IH]; intros h H E.
  - destruct h as [|y h]; [exact (B [] u s a h2 E N)|]. cbn in E. injection E as -> <-.
    destruct (H [] u s a h eq_refl N) as [r [h3 Q]]. exists r, (h3 ++ b). rewrite Q. reflexivity.
  - destruct h as [|y h].
    + exact (B (x :: h1) u s a h2 E N).
    + cbn in E. injection E as -> E. apply (IH h); [|exact E]. intros g1 u' s' a' g2 F M.
      apply (H (x :: g1) u' s' a' g2); [rewrite F; reflexivity|exact M].
Qed.
Lemma one_forced : forall h n s h' r, overridden h -> register_one h n s = (h', Ok r) -> overridden h'.
Proof.
  intros h n s h' r O H. unfold YgModel.register_one, ask in H.
  repeat match type of H with context [match server ?a ?b with _ => _ end] => destruct (server a b) as [[| |]|] eqn:?
         | context [match rg_version ?a with _ => _ end] => destruct (rg_version a)
         | context [match rg_id ?a with _ => _ end] => destruct (rg_id a) end;
    try discriminate H; injection H as <- <-; repeat rewrite <- app_assoc; apply forced_app; try exact O; cbn;
    intros h1 u s' a h2 E N;
    repeat first [discriminate E|destruct h1 as [|? h1]; cbn in E;
      [first [discriminate E|injection E; intros; subst; first [exfalso; eapply N; reflexivity|eexists; eexists; reflexivity]]
      |first [discriminate E|injection E as ? E; subst]]].
Qed.
Lemma node_forced : forall n l st st' r, overridden (r_hist st) -> register_node n l st = (st', Ok r) -> overridden (r_hist st').
Proof.
  intros n l st st' r O H. destruct (node_ok _ _ _ _ _ H) as [refs [t [_ [_ [_ [_ E3]]]]]]. exact (one_forced _ _ _ _ _ O E3).
Qed.
Lemma all_forced : forall g l st st', overridden (r_hist st) -> register_all g l st = (st', Ok tt) -> overridden (r_hist st').
Proof.
  intros g. induction l as [|n r IH]; intros st st' O H; cbn in H; [injection H as <-; exact O|].
  destruct (register_node n (sources g n) st) as [st1 [y|e| |]] eqn:E; try discriminate H.
  exact (IH _ _ (node_forced _ _ _ _ _ O E) H).
Qed.

(* where a version comes from when no refusal was overridden *)
Definition plain_history (h : history) : Prop := forall u a, ~ In (CNoCompat u, a) h.
Definition versioned (l : entries) : Prop := forall n s r, In (n, s, r) l ->
  (exists h u t, server h (CRegister u t) = Some (AReg r) /\ rg_version r <> None) \/ (exists h u t, server h (CBySchema u t) = Some (AReg r)).
Lemma one_grows : forall h n s, exists b, fst (register_one h n s) = h ++ b.
Proof.
  intros h n s. unfold YgModel.register_one, ask.
  repeat match goal with |- context [match server ?a ?b with _ => _ end] => destruct (server a b) as [[| |]|] eqn:?
         | |- context [match rg_version ?a with _ => _ end] => destruct (rg_version a)
         | |- context [match rg_id ?a with _ => _ end] => destruct (rg_id a) end;
    cbn [fst]; repeat rewrite <- app_assoc; eexists; reflexivity.
Qed.
Lemma node_grows : forall n l st st' x, register_node n l st = (st', x) -> exists b, r_hist st' = r_hist st ++ b.
Proof.
  intros n l st st' x H. unfold YgModel.register_node in H.
  destruct (refs_of (r_supplied st) l) as [refs|e| |]; try (injection H as <- _; exists []; rewrite app_nil_r; reflexivity).
  destruct (mget N.eqb n texts) as [t|]; try (injection H as <- _; exists []; rewrite app_nil_r; reflexivity). cbv zeta in H.
  pose proof (one_grows (r_hist st) n (Schema t (sort_refs refs) (feats_of lib n))) as [b B].
  destruct (register_one (r_hist st) n (Schema t (sort_refs refs) (feats_of lib n))) as [h [r'|e| |]]; injection H as <- _; exists b; exact B.
Qed.
Lemma all_grows : forall g l st st' x, register_all g l st = (st', x) -> exists b, r_hist st' = r_hist st ++ b.
Proof.
  intros g. induction l as [|n r IH]; intros st st' x H; cbn in H; [injection H as <- _; exists []; rewrite app_nil_r; reflexivity|].
  destruct (register_node n (sources g n) st) as [st1 [y|e| |]] eqn:E; destruct (node_grows _ _ _ _ _ E) as [b B];
    try (injection H as <- _; exists b; exact B).
  destruct (IH _ _ _ H) as [c C]. exists (b ++ c). rewrite C, B, app_assoc. reflexivity.
Qed.
Lemma plain_app : forall h b, plain_history (h ++ b) -> plain_history h.
Proof. intros h b H u a I. apply (H u a), in_or_app. left. exact I. Qed.
Lemma one_versioned : forall h n s h' r, plain_history h' -> register_one h n s = (h', Ok r) ->
  (exists h u t, server h (CRegister u t) = Some (AReg r) /\ rg_version r <> None) \/ (exists h u t, server h (CBySchema u t) = Some (AReg r)).
Proof.
  intros h n s h' r P H. unfold YgModel.register_one, ask in H.
  repeat match type of H with context [match server ?a ?b with _ => _ end] => destruct (server a b) as [[| |]|] eqn:?
         | context [match rg_version ?a with _ => _ end] => destruct (rg_version a) eqn:?
         | context [match rg_id ?a with _ => _ end] => destruct (rg_id a) end;
    try discriminate H; injection H as <- <-;
    try (exfalso; eapply P; apply in_or_app; left; apply in_or_app; right; left; reflexivity).
  - left. do 3 eexists. split; [eassumption|congruence].
  - right. do 3 eexists. eassumption.
Qed.
Lemma node_versioned : forall n l st st' x, versioned (r_log st) -> plain_history (r_hist st') -> register_node n l st = (st', x) -> versioned (r_log st').
Proof.
  intros n l st st' x A P H. destruct x as [r|e| |]; try (destruct (node_fail _ _ _ _ _ H) as [-> _]; [discriminate|exact A]).
  destruct (node_ok _ _ _ _ _ H) as [refs [t [_ [_ [E1 [_ E3]]]]]]. rewrite E1. intros m s q I. apply in_snoc in I.
  destruct I as [I|I]; [exact (A m s q I)|]. injection I as -> -> ->. exact (one_versioned _ _ _ _ _ P E3).
Qed.
Lemma all_versioned : forall g l st st' x, versioned (r_log st) -> plain_history (r_hist st') -> register_all g l st = (st', x) -> versioned (r_log st').
Proof.
  intros g. induction l as [|n r IH]; intros st st' x A P H; cbn in H; [injection H as <- _; exact A|].
  destruct (register_node n (sources g n) st) as [st1 [y|e| |]] eqn:E;
    try (injection H as <- _; exact (node_versioned _ _ _ _ _ A P E)).
  destruct (all_grows _ _ _ _ _ H) as [b B]. assert (P1 : plain_history (r_hist st1)) by (rewrite B in P; exact (plain_app _ _ P)).
  exact (IH _ _ _ (node_versioned _ _ _ _ _ A P1 E) P H).
Qed.

(* the whole run *)
Variable topo : graph -> option (list name).
Notation register_schema := (register_schema deps_of subject_of server topo).
Notation st0 := (RSt [] [] []).
Lemma backed0 : backed st0. Proof. intros n x H. discriminate H. Qed.
Lemma sound0 : sound_log (r_log st0). Proof. intros l1 n s r l2 E. destruct l1; discriminate E. Qed.
Lemma answered0 : answered (r_log st0). Proof. intros n s r []. Qed.
Lemma over0 : overridden (r_hist st0). Proof. intros h1 u s a h2 E. destruct h1; discriminate E. Qed.
(* the three ways a run can go *)
Lemma run_cases : forall fuel root st x, register_schema fuel lib texts root = (st, x) ->
  (st = st0 /\ forall r, x <> Ok r) \/
  exists g order, to_graph deps_of lib texts fuel = Ok g /\ topo g = Some order /\ In root (g_nodes g) /\
    exists y st1, register_all g order st0 = (st1, y) /\
    ((st = st1 /\ forall r, x <> Ok r) \/
     (y = Ok tt /\ register_node root (sources g root ++ filter (no_targets g) (g_nodes g)) st1 = (st, x))).
Proof.
  intros fuel root st x H. unfold YgModel.register_schema in H.
  destruct (find_module lib root); [|injection H as <- <-; left; split; [reflexivity|discriminate]].
  destruct (to_graph deps_of lib texts fuel) as [g|e| |]; try (injection H as <- <-; left; split; [reflexivity|discriminate]).
  destruct (topo g) as [order|] eqn:T; [|injection H as <- <-; left; split; [reflexivity|discriminate]].
  destruct (mem root (g_nodes g)) eqn:M; [|injection H as <- <-; left; split; [reflexivity|discriminate]].
  right. exists g, order. split; [reflexivity|]. split; [exact T|]. split; [apply mem_in; exact M|].
  destruct (register_all g order st0) as [st1 y] eqn:A. exists y, st1. split; [reflexivity|].
  destruct y as [[]|e| |]; try (injection H as <- <-; left; split; [reflexivity|discriminate]).
  destruct (mget N.eqb root texts) eqn:R; [right; split; [reflexivity|exact H]|injection H as <- <-; left; split; [reflexivity|discriminate]].
Qed.
Lemma run_sound : forall fuel root st x, register_schema fuel lib texts root = (st, x) -> backed st /\ sound_log (r_log st) /\ answered (r_log st).
Proof.
  intros fuel root st x H. destruct (run_cases _ _ _ _ H) as [[-> _]|[g [order [_ [_ [_ [y [st1 [A Q]]]]]]]]].
  - split; [exact backed0|split; [exact sound0|exact answered0]].
  - destruct (all_keeps _ _ _ _ _ backed0 sound0 A) as [B1 S1]. pose proof (all_answered _ _ _ _ _ answered0 A) as A1.
    destruct Q as [[-> _]|[-> N]]; [split; [exact B1|split; [exact S1|exact A1]]|].
    destruct (node_keeps _ _ _ _ _ B1 S1 N) as [B2 S2]. split; [exact B2|split; [exact S2|exact (node_answered _ _ _ _ _ A1 N)]].
Qed.
Lemma versioned0 : versioned (r_log st0). Proof. intros n s r []. Qed.
Lemma run_versioned : forall fuel root st x, register_schema fuel lib texts root = (st, x) -> plain_history (r_hist st) -> versioned (r_log st).
Proof.
  intros fuel root st x H P. destruct (run_cases _ _ _ _ H) as [[-> _]|[g [order [_ [_ [_ [y [st1 [A Q]]]]]]]]]; [exact versioned0|].
  destruct Q as [[-> _]|[-> N]]; [exact (all_versioned _ _ _ _ _ versioned0 P A)|].
  destruct (node_grows _ _ _ _ _ N) as [b B]. assert (P1 : plain_history (r_hist st1)) by (rewrite B in P; exact (plain_app _ _ P)).
  exact (node_versioned _ _ _ _ _ (all_versioned _ _ _ _ _ versioned0 P1 A) P N).
Qed.
Lemma run_forced : forall fuel root st r, register_schema fuel lib texts root = (st, Ok r) -> overridden (r_hist st).
Proof.
  intros fuel root st r H. destruct (run_cases _ _ _ _ H) as [[_ F]|[g [order [_ [_ [_ [y [st1 [A [[_ F]|[-> N]]]]]]]]]]];
    [exfalso; exact (F r eq_refl)|exfalso; exact (F r eq_refl)|].
  exact (node_forced _ _ _ _ _ (all_forced _ _ _ _ over0 A) N).
Qed.
Lemma strict_refs : forall l, Sorted by_name l -> NoDup (map rf_name l) -> Sorted (fun x y => rf_name x < rf_name y) l.
Proof.
  induction l as [|x r IH]; intros H D; [constructor|]. inversion H as [|a b H1 H2]; subst. cbn in D. apply NoDup_cons_iff in D.
  destruct D as [D1 D2]. constructor; [exact (IH H1 D2)|]. destruct H2 as [|y r L]; constructor. unfold by_name in L.
  assert (rf_name x <> rf_name y); [|lia]. intros E. apply D1. cbn. left. congruence.
Qed.
Lemma run_ok : forall fuel root st last, (forall g o, topo g = Some o -> is_topo g o) ->
  register_schema fuel lib texts root = (st, Ok last) ->
  exists g l s, to_graph deps_of lib texts fuel = Ok g /\ r_log st = l ++ [(root, s, last)] /\
    Permutation (map e_of l) (g_nodes g) /\ Permutation (ref_names s) (sources g root ++ filter (no_targets g) (g_nodes g)) /\
    forall n s' r, In (n, s', r) l -> Permutation (ref_names s') (sources g n).
Proof.
  intros fuel root st last TP H. destruct (run_cases _ _ _ _ H) as [[_ F]|[g [order [G [T [_ [y [st1 [A [[_ F]|[-> N]]]]]]]]]]];
    [exfalso; exact (F last eq_refl)|exfalso; exact (F last eq_refl)|].
  destruct (all_keeps _ _ _ _ _ backed0 sound0 A) as [B1 S1]. destruct (all_names _ _ _ _ backed0 sound0 A) as [more [M1 [M2 M3]]].
  destruct (node_names _ _ _ _ _ B1 N) as [s [L P]]. cbn in M1. rewrite M1 in L. exists g, more, s.
  split; [exact G|]. split; [exact L|]. split; [rewrite M2; exact (proj1 (TP g order T))|]. split; [exact P|exact M3].
Qed.
Lemma run_safe : forall fuel root st, (forall g o, topo g = Some o -> is_topo g o) -> has_ids ->
  (forall n, In n (lib_nodes lib) -> mget N.eqb n texts <> None) -> to_graph deps_of lib texts fuel <> Panic ->
  (forall m, find_module lib root = Some m -> In root (lib_nodes lib)) ->
  register_schema fuel lib texts root <> (st, Panic).
Proof.
  intros fuel root st TP ID TX GP RN H. unfold YgModel.register_schema in H.
  destruct (find_module lib root) as [m|] eqn:FM; [|discriminate H].
  destruct (to_graph deps_of lib texts fuel) as [g|e| |] eqn:G; try discriminate H; [|congruence].
  destruct (to_graph_grows _ _ _ _ _ G) as [GN [GE [GD GS]]]. cbn in GN, GD.
  assert (GD' : NoDup (g_edges g)) by (apply GD; constructor).
  destruct (sets_nodes lib [] (NoDup_nil _)) as [ND _].
  destruct (topo g) as [order|] eqn:T; [|discriminate H]. destruct (TP g order T) as [P B]. rewrite GN in P.
  destruct (mem root (g_nodes g)) eqn:M; [|apply mem_out in M; rewrite GN in M; exact (M (RN m eq_refl))].
  assert (OD : NoDup order) by (eapply Permutation_NoDup; [symmetry; exact P|exact ND]).
  assert (OT : forall n, In n order -> mget N.eqb n texts <> None) by (intros n I; apply TX; exact (Permutation_in _ P I)).
  pose proof (all_safe g order ID OT B OD order [] st0 eq_refl (fun m I => match I with end)) as SA.
  destruct (register_all g order st0) as [st1 [[]|e| |]] eqn:A; cbn in SA; try discriminate H; [|congruence].
  destruct (mget N.eqb root texts) eqn:R; [|exact (TX root (RN m eq_refl) R)].
  refine (node_safe root (sources g root ++ filter (no_targets g) (g_nodes g)) st1 ID _ _ _).
  - intros b I. apply (all_supplied _ _ _ _ A). left. apply (Permutation_in _ (Permutation_sym P)).
    apply in_app_or in I. destruct I as [I|I].
    + apply sources_in in I. apply (GS (b, root)). apply GE in I. destruct I as [[]|I]. exact I.
    + apply filter_In in I. rewrite <- GN. exact (proj1 I).
  - rewrite R. discriminate.
  - rewrite H. reflexivity.
Qed.
End Register.
