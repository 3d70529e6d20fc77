(* Lemmas about loading modules from a device. *)
From Coq Require Import Permutation.
From Verif Require Import Base MapLib YlModel YlSpec.

Ltac inv H := inversion H; subst; clear H.

(* ---- lookups ---- *)
Lemma get_mod_some : forall l n m, get_mod n l = Some m -> In m l /\ md_name m = n.
Proof. intros l n m H. apply find_some in H. destruct H as [H1 H2]. split; [exact H1|]. unfold mod_is in H2. lia. Qed.
Lemma get_mod_none : forall l n m, get_mod n l = None -> In m l -> md_name m <> n.
Proof. intros l n m H K E. pose proof (find_none _ _ H m K) as F. unfold mod_is in F. lia. Qed.
Lemma find_module_some : forall lib n m, find_module lib n = Some m -> has_module lib m /\ md_name m = n.
Proof.
  induction lib as [|s r IH]; intros n m H; [discriminate H|]. cbn in H.
  destruct (get_mod n (ms_mods s)) as [m'|] eqn:E.
  - inv H. destruct (get_mod_some _ _ _ E) as [A B]. split; [|exact B]. exists s. split; [left; reflexivity|exact A].
  - destruct (IH n m H) as [[s' [A B]] C]. split; [|exact C]. exists s'. split; [right; exact A|exact B].
Qed.
Lemma find_module_none : forall lib n, find_module lib n = None -> ~ implemented lib n.
Proof.
  induction lib as [|s r IH]; intros n H [m [[s' [A B]] C]]; [destruct A|]. cbn in H.
  destruct (get_mod n (ms_mods s)) as [m'|] eqn:E; [discriminate H|]. destruct A as [->|A].
  - exact (get_mod_none _ _ _ E B C).
  - apply (IH n H). exists m. split; [|exact C]. exists s'. split; [exact A|exact B].
Qed.
Lemma find_import_some : forall lib n l, keyed lib -> find_import lib n = Some l ->
  l <> [] /\ forall i, In i l -> has_import lib i /\ im_name i = n.
Proof.
  induction lib as [|s r IH]; intros n l K H; [discriminate H|]. cbn in H.
  destruct (mget N.eqb n (ms_imps s)) as [l'|] eqn:E.
  - inv H. apply (mget_In _ Neqb_spec) in E. destruct (K s (or_introl eq_refl) n l E) as [A B]. split; [exact A|].
    intros i I. split; [|exact (B i I)]. exists s, n, l. repeat split; [left; reflexivity|exact E|exact I].
  - assert (K' : keyed r) by (intros s' A; apply K; right; exact A).
    destruct (IH n l K' H) as [A B]. split; [exact A|]. intros i I. destruct (B i I) as [[s' [n' [l' [C [D F]]]]] G].
    split; [|exact G]. exists s', n', l'. repeat split; [right; exact C|exact D|exact F].
Qed.
Lemma find_import_none : forall lib n i, keyed lib -> find_import lib n = None -> has_import lib i -> im_name i <> n.
Proof.
  induction lib as [|s r IH]; intros n i K H [s' [n' [l' [A [B C]]]]] E; [destruct A|]. cbn in H.
  destruct (mget N.eqb n (ms_imps s)) as [l|] eqn:G; [discriminate H|]. destruct A as [->|A].
  - destruct (K s' (or_introl eq_refl) n' l' B) as [_ Q]. specialize (Q i C).
    apply (mget_None_notin _ Neqb_spec) in G. apply G. apply in_map_iff. exists (n', l'). split; [cbn; congruence|exact B].
  - apply (IH n i (fun s'' X => K s'' (or_intror X)) H); [|exact E]. exists s', n', l'. repeat split; assumption.
Qed.
Lemma in_all_subs : forall lib s, In s (all_subs lib) <-> has_sub lib s.
Proof.
  intros lib s. unfold all_subs. rewrite in_flat_map. split.
  - intros [ms [A B]]. apply in_flat_map in B. destruct B as [m [B C]]. exists m. split; [exists ms; split; assumption|exact C].
  - intros [m [[ms [A B]] C]]. exists ms. split; [exact A|]. apply in_flat_map. exists m. split; assumption.
Qed.
Lemma find_sub_some : forall lib n s, find_submodule lib n = Some s -> has_sub lib s /\ sb_name s = n.
Proof. intros lib n s H. apply find_some in H. destruct H as [A B]. split; [apply in_all_subs; exact A|unfold sub_is in B; lia]. Qed.
Lemma find_sub_none : forall lib n s, find_submodule lib n = None -> has_sub lib s -> sb_name s <> n.
Proof. intros lib n s H K E. pose proof (find_none _ _ H s (proj2 (in_all_subs lib s) K)) as F. unfold sub_is in F. lia. Qed.

Lemma mem_in : forall n l, mem n l = true <-> In n l.
Proof.
  intros n l. unfold mem. rewrite existsb_exists. split.
  - intros [x [A B]]. replace n with x by lia. exact A.
  - intros H. exists n. split; [exact H|lia].
Qed.
Lemma mem_out : forall n l, mem n l = false <-> ~ In n l.
Proof. intros n l. rewrite <- mem_in. destruct (mem n l); split; congruence. Qed.

(* ---- queue items as library entries ---- *)
Definition as_entry (x : item) : entry :=
  match x with Full m => EMod m | FullSub _ s | OnlySub _ s => ESub s | Only i => EImp i end.
Lemma iname_entry : forall x, iname x = e_name (as_entry x).
Proof. intros []; reflexivity. Qed.
Lemma irev_entry : forall x, irev x = e_rev (as_entry x).
Proof. intros []; reflexivity. Qed.

Lemma seed_items_sound : forall lib n l x, keyed lib -> seed_items lib n = Some l -> In x l ->
  listed lib (as_entry x) /\ iname x = n /\ ~ is_sub (as_entry x).
Proof.
  intros lib n l x K H I. unfold seed_items in H. destruct (find_module lib n) as [m|] eqn:E.
  - inv H. destruct I as [<-|[]]. destruct (find_module_some _ _ _ E) as [A B]. repeat split; [exact A|exact B|intros []].
  - destruct (find_import lib n) as [li|] eqn:F; [|discriminate H]. inv H. apply in_map_iff in I. destruct I as [i [<- I]].
    destruct (find_import_some _ _ _ K F) as [_ Q]. destruct (Q i I) as [A B].
    repeat split; [exact A|cbn; rewrite B; exact (find_module_none _ _ E)|exact B|intros []].
Qed.
Lemma seed_items_complete : forall lib e, keyed lib -> listed lib e -> ~ is_sub e ->
  exists l x, seed_items lib (e_name e) = Some l /\ In x l /\ iname x = e_name e.
Proof.
  intros lib e K L S. unfold seed_items. destruct (find_module lib (e_name e)) as [m|] eqn:E.
  - exists [Full m], (Full m). repeat split; [left; reflexivity|exact (proj2 (find_module_some _ _ _ E))].
  - destruct e as [m|i|s]; [exfalso| |exfalso; apply S; exact I].
    + apply (find_module_none _ _ E). exists m. split; [exact L|reflexivity].
    + destruct (find_import lib (e_name (EImp i))) as [l|] eqn:F.
      * destruct (find_import_some _ _ _ K F) as [A B]. destruct l as [|j r]; [congruence|].
        exists (map Only (j :: r)), (Only j). repeat split; [left; reflexivity|exact (proj2 (B j (or_introl eq_refl)))].
      * exfalso. exact (find_import_none _ _ i K F (proj1 L) eq_refl).
Qed.
Lemma import_items_in : forall lib n x, In x (import_items lib n) -> exists l, seed_items lib n = Some l /\ In x l.
Proof. intros lib n x H. unfold import_items in H. destruct (seed_items lib n) as [l|]; [exists l; split; [reflexivity|exact H]|destruct H]. Qed.
Lemma include_items_sound : forall lib cur n x, In x (include_items lib cur n) ->
  listed lib (as_entry x) /\ iname x = n /\ ~ is_import (as_entry x) /\
  match x with FullSub p _ => p = iname cur /\ is_full cur = true
             | OnlySub p _ => p = iname cur /\ is_full cur = false | _ => True end.
Proof.
  intros lib cur n x H. unfold include_items in H. destruct (find_module lib n) as [m|] eqn:E.
  - destruct H as [<-|[]]. destruct (find_module_some _ _ _ E) as [A B]. repeat split; [exact A|exact B|intros []].
  - destruct (find_submodule lib n) as [s|] eqn:F; [|destruct H].
    destruct (find_sub_some _ _ _ F) as [A B]. destruct H as [<-|[]].
    pose proof (find_module_none _ _ E) as Q. rewrite <- B in Q.
    destruct (is_full cur) eqn:G; repeat split; solve [exact A|exact B|exact Q|intros []].
Qed.
Lemma include_items_complete : forall lib cur e, listed lib e -> ~ is_import e ->
  exists x, In x (include_items lib cur (e_name e)) /\ iname x = e_name e.
Proof.
  intros lib cur e L S. unfold include_items. destruct (find_module lib (e_name e)) as [m|] eqn:E.
  - exists (Full m). split; [left; reflexivity|exact (proj2 (find_module_some _ _ _ E))].
  - destruct e as [m|i|s]; [exfalso|exfalso; apply S; exact I|].
    + apply (find_module_none _ _ E). exists m. split; [exact L|reflexivity].
    + destruct (find_submodule lib (e_name (ESub s))) as [s'|] eqn:F.
      * eexists. split; [left; reflexivity|]. destruct (is_full cur); exact (proj2 (find_sub_some _ _ _ F)).
      * exfalso. exact (find_sub_none _ _ s F (proj1 L) eq_refl).
Qed.
Lemma module_items_sound : forall lib n x, In x (module_items lib n) ->
  exists m, x = Full m /\ has_module lib m /\ md_name m = n.
Proof.
  intros lib n x H. unfold module_items in H. destruct (find_module lib n) as [m|] eqn:E; [|destruct H].
  destruct H as [<-|[]]. destruct (find_module_some _ _ _ E) as [A B]. exists m. repeat split; assumption.
Qed.
Lemma module_items_complete : forall lib m, has_module lib m ->
  exists x, In x (module_items lib (md_name m)) /\ iname x = md_name m.
Proof.
  intros lib m H. unfold module_items. destruct (find_module lib (md_name m)) as [m'|] eqn:E.
  - exists (Full m'). split; [left; reflexivity|exact (proj2 (find_module_some _ _ _ E))].
  - exfalso. apply (find_module_none _ _ E). exists m. split; [exact H|reflexivity].
Qed.

Lemma in_snoc : forall {A} (x y : A) l, In x (l ++ [y]) <-> In x l \/ x = y.
Proof. intros A x y l. rewrite in_app_iff. cbn. split; [intros [H|[H|[]]]; [left; exact H|right; symmetry; exact H]|intros [H|H]; [left; exact H|right; left; symmetry; exact H]]. Qed.

Section Load.
Variable checker : name -> option N -> option N -> octets -> octets -> list octets -> list octets -> compat.
Variable set_order : list octets -> list octets.
Variable hash : octets -> N.
Variable device : name -> option N -> option octets.
Variable deps_of : octets -> option (list name * list name).
Notation add_item := (add_item checker set_order).
Notation bfs := (bfs checker set_order device deps_of).
Notation load := (load checker set_order hash device deps_of).
Notation load_upto := (load_upto checker set_order hash device deps_of).
Notation needed := (needed device deps_of).

Lemma bfs_nil : forall lib n v b lg, bfs lib n [] v b lg = (lg, Ok b).
Proof. intros lib [|n]; reflexivity. Qed.
Lemma bfs_cons : forall lib n x q v b lg, bfs lib n (x :: q) v b lg =
  if mem (iname x) v then bfs lib n q v b lg
  else match n with
       | O => (lg, Diverge)
       | S f =>
           match device (iname x) (irev x) with
           | None => (lg ++ [(iname x, irev x)], Err (FetchError (iname x)))
           | Some t =>
               match deps_of t with
               | None => (lg ++ [(iname x, irev x)], Err (ParseError (iname x)))
               | Some d =>
                   match add_item x t b with
                   | (b', Ok _) => bfs lib f (q ++ unseen (v ++ [iname x]) (pushes lib x d)) (v ++ [iname x]) b' (lg ++ [(iname x, irev x)])
                   | (_, Err e) => (lg ++ [(iname x, irev x)], Err e)
                   | (_, Panic) => (lg ++ [(iname x, irev x)], Panic)
                   | (_, Diverge) => (lg ++ [(iname x, irev x)], Diverge)
                   end
               end
           end
       end.
Proof. intros lib [|n]; reflexivity. Qed.

Lemma add_item_safe : forall x t b, snd (add_item x t b) <> Panic /\ snd (add_item x t b) <> Diverge.
Proof.
  intros x t b. unfold YlModel.add_item, add_module, add_sub, add_import, add_imp_sub, accept_sub.
  destruct x; repeat match goal with |- context [match ?c with _ => _ end] => destruct c end; cbn; split; discriminate.
Qed.

(* ---- names stay inside the library ---- *)
Definition names (l : list item) : list name := map iname l.
Lemma listed_name : forall lib e, listed lib e -> In (e_name e) (lib_names lib).
Proof.
  intros lib e L. unfold lib_names. apply in_flat_map. unfold set_names. destruct e as [m|i|s]; cbn in L.
  - destruct L as [ms [A B]]. exists ms. split; [exact A|]. apply in_or_app. left. apply in_map_iff. exists m. split; [reflexivity|exact B].
  - destruct L as [[ms [n [l [A [B C]]]]] _]. exists ms. split; [exact A|]. apply in_or_app. right. apply in_or_app. right.
    apply in_map_iff. exists i. split; [reflexivity|]. apply in_flat_map. exists (n, l). split; assumption.
  - destruct L as [[m [[ms [A B]] C]] _]. exists ms. split; [exact A|]. apply in_or_app. right. apply in_or_app. left.
    apply in_map_iff. exists s. split; [reflexivity|]. apply in_flat_map. exists m. split; assumption.
Qed.
Lemma pushes_cases : forall lib x d y, In y (pushes lib x d) ->
  (exists n, In n (fst d) /\ In y (import_items lib n)) \/
  (exists n, In n (snd d) /\ In y (include_items lib x n)) \/
  (exists n, In n (idevs x ++ iaugs x) /\ In y (module_items lib n)).
Proof.
  intros lib x d y H. unfold pushes in H. rewrite !in_app_iff, !in_flat_map in H.
  destruct H as [[n [A B]]|[[n [A B]]|[[n [A B]]|[n [A B]]]]].
  - left. exists n. split; assumption.
  - right. left. exists n. split; assumption.
  - right. right. exists n. split; [apply in_or_app; left; exact A|exact B].
  - right. right. exists n. split; [apply in_or_app; right; exact A|exact B].
Qed.
Lemma pushes_listed : forall lib x d y, keyed lib -> In y (pushes lib x d) -> listed lib (as_entry y).
Proof.
  intros lib x d y K H. apply pushes_cases in H. destruct H as [[n [A B]]|[[n [A B]]|[n [A B]]]].
  - apply import_items_in in B. destruct B as [l [B C]]. exact (proj1 (seed_items_sound _ _ _ _ K B C)).
  - exact (proj1 (include_items_sound _ _ _ _ B)).
  - destruct (module_items_sound _ _ _ B) as [m [-> [C _]]]. exact C.
Qed.
Lemma unseen_in : forall v l x, In x (unseen v l) <-> In x l /\ ~ In (iname x) v.
Proof. intros v l x. unfold unseen. rewrite filter_In. rewrite negb_true_iff, mem_out. reflexivity. Qed.
Lemma all_seeds_in : forall lib l q, keyed lib -> all_seeds lib l = Ok q -> forall x, In x q ->
  listed lib (as_entry x) /\ In (iname x) l /\ ~ is_sub (as_entry x).
Proof.
  induction l as [|n r IH]; intros q K H x I; cbn in H; [inv H; destruct I|].
  destruct (seed_items lib n) as [a|] eqn:E; [|discriminate H].
  destruct (all_seeds lib r) as [q'| | |] eqn:F; cbn in H; inv H. apply in_app_or in I. destruct I as [I|I].
  - destruct (seed_items_sound _ _ _ _ K E I) as [A [B C]]. repeat split; [exact A|left; symmetry; exact B|exact C].
  - destruct (IH q' K eq_refl x I) as [A [B C]]. repeat split; [exact A|right; exact B|exact C].
Qed.
Lemma all_seeds_safe : forall lib l, all_seeds lib l <> Panic /\ all_seeds lib l <> Diverge.
Proof.
  induction l as [|n r [A B]]; cbn; [split; discriminate|]. destruct (seed_items lib n); [|split; discriminate].
  destruct (all_seeds lib r); cbn; try (split; discriminate); [contradiction|contradiction].
Qed.

(* ---- termination and the request log ---- *)
Lemma bfs_ends : forall lib, keyed lib -> forall n q v b lg,
  (forall x, In x q -> listed lib (as_entry x)) -> NoDup v -> incl v (lib_names lib) ->
  (length (lib_names lib) <= length v + n)%nat ->
  snd (bfs lib n q v b lg) <> Diverge.
Proof.
  intros lib K. induction n as [|n IH]; intros q; induction q as [|x q IHq]; intros v b lg Q D I L;
    try (rewrite bfs_nil; discriminate); rewrite bfs_cons.
  - destruct (mem (iname x) v) eqn:M; [apply IHq; auto; intros y Y; apply Q; right; exact Y|].
    apply mem_out in M. exfalso.
    assert (A : NoDup (iname x :: v)) by (constructor; assumption).
    assert (B : incl (iname x :: v) (lib_names lib)).
    { intros y [<-|Y]; [|exact (I y Y)]. rewrite iname_entry. apply listed_name. apply Q. left. reflexivity. }
    pose proof (NoDup_incl_length A B) as F. cbn in F. lia.
  - destruct (mem (iname x) v) eqn:M; [apply IHq; auto; intros y Y; apply Q; right; exact Y|].
    apply mem_out in M.
    destruct (device (iname x) (irev x)) as [t|]; [|discriminate].
    destruct (deps_of t) as [d|]; [|discriminate].
    pose proof (add_item_safe x t b) as [S1 S2]. destruct (add_item x t b) as [b' [a|e| |]]; cbn in S1, S2; try congruence; [|discriminate].
    apply IH.
    + intros y Y. apply in_app_or in Y. destruct Y as [Y|Y]; [apply Q; right; exact Y|].
      apply unseen_in in Y. exact (pushes_listed _ _ _ _ K (proj1 Y)).
    + apply (Permutation.Permutation_NoDup (l := iname x :: v)); [apply Permutation.Permutation_cons_append|constructor; assumption].
    + intros y Y. apply in_app_or in Y. destruct Y as [Y|[<-|[]]]; [exact (I y Y)|].
      rewrite iname_entry. apply listed_name. apply Q. left. reflexivity.
    + rewrite app_length. cbn. lia.
Qed.
Lemma bfs_more : forall lib n q v b lg m, snd (bfs lib n q v b lg) <> Diverge -> (n <= m)%nat ->
  bfs lib m q v b lg = bfs lib n q v b lg.
Proof.
  intros lib. induction n as [|n IH]; intros q; induction q as [|x q IHq]; intros v b lg m H L;
    try (rewrite !bfs_nil; reflexivity); rewrite bfs_cons in H; rewrite !bfs_cons;
    destruct (mem (iname x) v) eqn:M; try (apply IHq; assumption).
  - exfalso. apply H. reflexivity.
  - destruct m as [|m]; [lia|].
    destruct (device (iname x) (irev x)) as [t|]; [|reflexivity].
    destruct (deps_of t) as [d|]; [|reflexivity].
    destruct (add_item x t b) as [b' [a|e| |]]; try reflexivity. apply IH; [exact H|lia].
Qed.
(* The log only ever lists the names visited, each once, with the revision the
   library gives. *)
Definition log_ok (lib : library) (v : list name) (lg : log) : Prop :=
  v = map fst lg /\ NoDup (map fst lg) /\
  forall n r, In (n, r) lg -> exists e, listed lib e /\ e_name e = n /\ e_rev e = r.
Lemma log_ok_snoc : forall lib v lg x, log_ok lib v lg -> ~ In (iname x) v -> listed lib (as_entry x) ->
  log_ok lib (v ++ [iname x]) (lg ++ [(iname x, irev x)]).
Proof.
  intros lib v lg x [-> [B C]] M L. unfold log_ok. rewrite map_app. cbn. repeat split.
  - apply (Permutation_NoDup (l := iname x :: map fst lg)); [apply Permutation_cons_append|constructor; assumption].
  - intros n r I. apply in_app_or in I. destruct I as [I|[I|[]]]; [exact (C n r I)|]. inv I.
    exists (as_entry x). rewrite iname_entry, irev_entry. repeat split. exact L.
Qed.
Lemma bfs_log : forall lib, keyed lib -> forall n q v b lg,
  (forall x, In x q -> listed lib (as_entry x)) -> log_ok lib v lg ->
  exists v', log_ok lib v' (fst (bfs lib n q v b lg)).
Proof.
  intros lib K. induction n as [|n IH]; intros q; induction q as [|x q IHq]; intros v b lg Q L;
    try (rewrite bfs_nil; exists v; exact L); rewrite bfs_cons;
    (destruct (mem (iname x) v) eqn:M; [apply (IHq v b lg); [intros y Y; apply Q; right; exact Y|exact L]|]).
  - exists v. exact L.
  - apply mem_out in M.
    pose proof (log_ok_snoc _ _ _ x L M (Q x (or_introl eq_refl))) as L'.
    destruct (device (iname x) (irev x)) as [t|]; [|eexists; exact L'].
    destruct (deps_of t) as [d|]; [|eexists; exact L'].
    destruct (add_item x t b) as [b' [a|e| |]]; try (eexists; exact L').
    apply (IH _ (v ++ [iname x])); [|exact L'].
    intros y Y. apply in_app_or in Y. destruct Y as [Y|Y]; [apply Q; right; exact Y|].
    apply unseen_in in Y. exact (pushes_listed _ _ _ _ K (proj1 Y)).
Qed.

Lemma load_ends : forall lib seeds n, keyed lib -> (length (lib_names lib) <= n)%nat ->
  snd (load_upto n lib seeds) <> Diverge.
Proof.
  intros lib seeds n K L. unfold YlModel.load_upto. pose proof (all_seeds_safe lib seeds) as [S1 S2].
  destruct (all_seeds lib seeds) as [q|e| |] eqn:E; try discriminate; try congruence.
  pose proof (bfs_ends lib K n q [] new_builder [] (fun x X => proj1 (all_seeds_in _ _ _ K E x X)) (NoDup_nil _) (incl_nil_l _) L) as D.
  destruct (bfs lib n q [] new_builder []) as [lg [b|e| |]]; cbn in *; try discriminate; [|congruence].
  unfold build. destruct (all_octets (mod_octets (b_texts b)) (b_mods b)) as [t|e| |] eqn:F; cbn; try discriminate.
  - destruct (all_octets (imp_octets (b_texts b)) (flat_map snd (b_imps b))) as [u|e| |] eqn:G; cbn; try discriminate.
    exfalso. revert G. induction (flat_map snd (b_imps b)) as [|i r IH]; cbn; [discriminate|].
    destruct (imp_octets (b_texts b) i) as [w|e| |] eqn:H; cbn; try discriminate.
    + destruct (all_octets (imp_octets (b_texts b)) r) eqn:I; cbn; try discriminate. intros _. apply IH. reflexivity.
    + exfalso. revert H. unfold imp_octets. induction (map sb_name (im_subs i) ++ [im_name i]) as [|z l IHl]; cbn; [discriminate|].
      unfold must at 1. destruct (mget N.eqb z (b_texts b)); cbn; [|discriminate]. destruct (musts (b_texts b) l); cbn; try discriminate. auto.
  - exfalso. revert F. induction (b_mods b) as [|i r IH]; cbn; [discriminate|].
    destruct (mod_octets (b_texts b) i) as [w|e| |] eqn:H; cbn; try discriminate.
    + destruct (all_octets (mod_octets (b_texts b)) r) eqn:I; cbn; try discriminate. intros _. apply IH. reflexivity.
    + exfalso. revert H. unfold mod_octets. induction (map sb_name (md_subs i) ++ [md_name i]) as [|z l IHl]; cbn; [discriminate|].
      unfold must at 1. destruct (mget N.eqb z (b_texts b)); cbn; [|discriminate]. destruct (musts (b_texts b) l); cbn in *; try discriminate. auto.
Qed.
Lemma load_more : forall lib seeds n, keyed lib -> (length (lib_names lib) <= n)%nat ->
  load_upto n lib seeds = load lib seeds.
Proof.
  intros lib seeds n K L. unfold YlModel.load, YlModel.load_upto.
  destruct (all_seeds lib seeds) as [q|e| |] eqn:E; try reflexivity.
  rewrite (bfs_more lib (length (lib_names lib)) q [] new_builder [] n); [reflexivity| |exact L].
  apply (bfs_ends lib K); [exact (fun x X => proj1 (all_seeds_in _ _ _ K E x X))|constructor|intros x []|cbn; lia].
Qed.
Lemma load_log : forall lib seeds, keyed lib -> exists v, log_ok lib v (fst (load lib seeds)).
Proof.
  intros lib seeds K. assert (O : log_ok lib [] []) by (repeat split; [constructor|intros n r []]).
  unfold YlModel.load, YlModel.load_upto. destruct (all_seeds lib seeds) as [q|e| |] eqn:E; try (exists []; exact O).
  destruct (bfs_log lib K (length (lib_names lib)) q [] new_builder [] (fun x X => proj1 (all_seeds_in _ _ _ K E x X)) O) as [v A].
  exists v. destruct (bfs lib (length (lib_names lib)) q [] new_builder []) as [lg [b|e| |]]; exact A.
Qed.

(* ---- one visit to a name not seen before ---- *)
Definition fresh_for (n : name) (b : builder) : Prop :=
  get_mod n (b_mods b) = None /\ mget N.eqb n (b_imps b) = None /\ mget N.eqb n (b_subs b) = None /\
  mget N.eqb n (b_texts b) = None.
(* what the builder becomes *)
Definition after (x : item) (t : octets) (b : builder) : builder :=
  match x with
  | Full m => Bld (b_mods b ++ [m]) (b_imps b) (b_texts b ++ [(iname x, t)]) (b_subs b)
  | Only i => Bld (b_mods b) (b_imps b ++ [(im_name i, [i])]) (b_texts b ++ [(iname x, t)]) (b_subs b)
  | FullSub _ s | OnlySub _ s => Bld (b_mods b) (b_imps b) (b_texts b ++ [(iname x, t)]) (b_subs b ++ [(sb_name s, s)])
  end.
Definition welcome (x : item) (b : builder) : lres added :=
  match x with
  | Full _ | Only _ => Ok Added
  | FullSub p s => match get_mod p (b_mods b) with
                   | None => Err (ModuleNotFound p)
                   | Some m => if existsb (sub_is (sb_name s)) (md_subs m) then Ok Added
                               else Err (SubmoduleNotFound p (sb_name s))
                   end
  | OnlySub p _ => match mget N.eqb p (b_imps b) with None => Err (ModuleNotFound p) | Some _ => Ok Added end
  end.
Lemma mset_new : forall {B} n (x : B) l, mget N.eqb n l = None -> mset N.eqb n x l = l ++ [(n, x)].
Proof.
  intros B n x. induction l as [|[k y] r IH]; cbn; intros H; [reflexivity|].
  destruct (n =? k); [discriminate H|]. rewrite (IH H). reflexivity.
Qed.
Lemma put_mod_new : forall m l, get_mod (md_name m) l = None -> put_mod m l = l ++ [m].
Proof.
  intros m. induction l as [|y r IH]; cbn; intros H; [reflexivity|]. unfold get_mod in H. cbn in H.
  unfold mod_is in H at 1. destruct (md_name y =? md_name m); [discriminate H|]. unfold get_mod in IH. rewrite (IH H). reflexivity.
Qed.
Lemma add_item_fresh : forall x t b, fresh_for (iname x) b ->
  snd (add_item x t b) = welcome x b /\ (welcome x b = Ok Added -> fst (add_item x t b) = after x t b).
Proof.
  intros x t b [F1 [F2 [F3 F4]]]. destruct x as [m|p s|i|p s]; cbn in *.
  - unfold add_module. rewrite F1. cbn. split; [reflexivity|intros _]. rewrite (put_mod_new _ _ F1), (mset_new _ _ _ F4). reflexivity.
  - unfold add_sub, accept_sub. rewrite F3. destruct (get_mod p (b_mods b)) as [m|]; [|split; [reflexivity|discriminate]].
    destruct (existsb (sub_is (sb_name s)) (md_subs m)); [|split; [reflexivity|discriminate]].
    split; [reflexivity|intros _]. unfold put_sub. cbn. rewrite (mset_new _ _ _ F3), (mset_new _ _ _ F4). reflexivity.
  - unfold add_import. rewrite F2. split; [reflexivity|intros _]. unfold put_imp. cbn. rewrite (mset_new _ _ _ F2), (mset_new _ _ _ F4). reflexivity.
  - unfold add_imp_sub, accept_sub. rewrite F3. destruct (mget N.eqb p (b_imps b)) as [m|]; [|split; [reflexivity|discriminate]].
    split; [reflexivity|intros _]. unfold put_sub. cbn. rewrite (mset_new _ _ _ F3), (mset_new _ _ _ F4). reflexivity.
Qed.

(* ---- the closure ---- *)
Definition direct (lib : library) (e e' : entry) : Prop :=
  listed lib e' /\
  ((imports device deps_of e (e_name e') /\ ~ is_sub e') \/
   (includes device deps_of e (e_name e') /\ ~ is_import e') \/
   (readable device deps_of e /\ changed_by e (e_name e') /\ exists m, e' = EMod m)).
Lemma needed_listed : forall lib seeds e, needed lib seeds e -> listed lib e.
Proof. intros lib seeds e H. destruct H; assumption. Qed.
Lemma needed_direct : forall lib seeds e e', needed lib seeds e -> direct lib e e' -> needed lib seeds e'.
Proof.
  intros lib seeds e e' N [L [[A B]|[[A B]|[A [B [m ->]]]]]].
  - exact (NeedImport _ _ _ _ _ _ N A L B).
  - exact (NeedInclude _ _ _ _ _ _ N A L B).
  - exact (NeedChange _ _ _ _ _ _ N A B L).
Qed.
Lemma pushes_sound : forall lib x t d y, keyed lib -> device (iname x) (irev x) = Some t -> deps_of t = Some d ->
  In y (pushes lib x d) -> direct lib (as_entry x) (as_entry y) /\
  match y with FullSub p s => p = iname x /\ is_full x = true /\ includes device deps_of (as_entry x) (sb_name s)
             | OnlySub p s => p = iname x /\ is_full x = false /\ includes device deps_of (as_entry x) (sb_name s)
             | _ => True end.
Proof.
  intros lib x t d y K T D H.
  assert (TX : text_of device (as_entry x) = Some t) by (unfold text_of; rewrite <- iname_entry, <- irev_entry; exact T).
  pose proof (pushes_listed _ _ _ _ K H) as L.
  apply pushes_cases in H. destruct H as [[n [A B]]|[[n [A B]]|[n [A B]]]].
  - apply import_items_in in B. destruct B as [l [B C]]. destruct (seed_items_sound _ _ _ _ K B C) as [_ [E F]].
    split; [split; [exact L|left; split; [|exact F]]|].
    + exists t, d. rewrite <- iname_entry, E. repeat split; assumption.
    + destruct y; try exact I; exfalso; apply F; exact I.
  - destruct (include_items_sound _ _ _ _ B) as [_ [E [F G]]].
    assert (Q : includes device deps_of (as_entry x) (e_name (as_entry y))).
    { exists t, d. rewrite <- iname_entry, E. repeat split; assumption. }
    split; [split; [exact L|right; left; split; assumption]|].
    destruct y; try exact I; (destruct G as [G1 G2]; repeat split; [exact G1|exact G2|exact Q]).
  - destruct (module_items_sound _ _ _ B) as [m [-> [E F]]]. split; [|exact I]. split; [exact L|right; right].
    split; [exists t, d; split; assumption|]. split; [|exists m; reflexivity]. cbn. rewrite F.
    destruct x; cbn in A; try destruct A as []; apply in_app_or in A; exact A.
Qed.
Lemma pushes_complete : forall lib x t d e', keyed lib -> device (iname x) (irev x) = Some t -> deps_of t = Some d ->
  direct lib (as_entry x) e' -> exists y, In y (pushes lib x d) /\ iname y = e_name e'.
Proof.
  intros lib x t d e' K T D [L H].
  assert (TX : text_of device (as_entry x) = Some t) by (unfold text_of; rewrite <- iname_entry, <- irev_entry; exact T).
  unfold pushes. destruct H as [[[t' [d' [A [B C]]]] E]|[[[t' [d' [A [B C]]]] E]|[_ [A [m ->]]]]].
  - rewrite TX in A. inv A. rewrite D in B. inv B. destruct (seed_items_complete _ _ K L E) as [l [y [F [G H]]]].
    exists y. split; [|exact H]. apply in_or_app. left. apply in_flat_map. exists (e_name e'). split; [exact C|].
    unfold import_items. rewrite F. exact G.
  - rewrite TX in A. inv A. rewrite D in B. inv B. destruct (include_items_complete _ x _ L E) as [y [F G]].
    exists y. split; [|exact G]. apply in_or_app. right. apply in_or_app. left. apply in_flat_map. exists (e_name e'). split; [exact C|exact F].
  - destruct (module_items_complete _ _ L) as [y [F G]]. exists y. split; [|exact G].
    rewrite app_assoc. apply in_or_app. right. rewrite <- flat_map_app. apply in_flat_map. exists (md_name m). split; [|exact F].
    destruct x; cbn in A; try destruct A as []; apply in_or_app; cbn; tauto.
Qed.

Section Inv.
Variable lib : library.
Variable seeds : list name.
Record good (q : list item) (v : list name) (b : builder) (lg : log) : Prop := {
  g_q : forall x, In x q -> needed lib seeds (as_entry x) /\
        match x with FullSub p s | OnlySub p s =>
          exists e, needed lib seeds e /\ e_name e = p /\ includes device deps_of e (sb_name s)
        | _ => True end;
  g_keys : map fst (b_texts b) = v;
  g_texts : forall n t, In (n, t) (b_texts b) -> exists e, needed lib seeds e /\ e_name e = n /\
        text_of device e = Some t /\ readable device deps_of e;
  g_seed : forall e, listed lib e -> ~ is_sub e -> In (e_name e) seeds -> In (e_name e) (v ++ names q);
  g_next : forall e e', In (e_name e) v -> needed lib seeds e -> direct lib e e' -> In (e_name e') (v ++ names q);
  g_m : forall m, In m (b_mods b) <-> has_module lib m /\ In (md_name m) v;
  g_i : forall n l, In (n, l) (b_imps b) <-> exists i, l = [i] /\ n = im_name i /\ listed lib (EImp i) /\ In n v;
  g_s : forall n s, In (n, s) (b_subs b) <-> n = sb_name s /\ listed lib (ESub s) /\ In n v;
  g_by : forall s, listed lib (ESub s) -> In (sb_name s) v ->
        exists e, needed lib seeds e /\ ~ is_sub e /\ includes device deps_of e (sb_name s);
  g_log1 : map fst lg = v;
  g_log2 : forall n r, In (n, r) lg -> exists e, needed lib seeds e /\ e_name e = n /\ e_rev e = r;
  g_nd : NoDup v }.

Hypothesis K : keyed lib.
Hypothesis C : clear lib.

Lemma good_fresh : forall q v b lg n, good q v b lg -> ~ In n v -> fresh_for n b.
Proof.
  intros q v b lg n G H. repeat split.
  - destruct (get_mod n (b_mods b)) as [m|] eqn:E; [|reflexivity]. exfalso. apply get_mod_some in E. destruct E as [A B].
    apply H. rewrite <- B. exact (proj2 (proj1 (g_m _ _ _ _ G m) A)).
  - destruct (mget N.eqb n (b_imps b)) as [l|] eqn:E; [|reflexivity]. exfalso. apply (mget_In _ Neqb_spec) in E.
    destruct (proj1 (g_i _ _ _ _ G n l) E) as [i [_ [_ [_ B]]]]. exact (H B).
  - destruct (mget N.eqb n (b_subs b)) as [s|] eqn:E; [|reflexivity]. exfalso. apply (mget_In _ Neqb_spec) in E.
    exact (H (proj2 (proj2 (proj1 (g_s _ _ _ _ G n s) E)))).
  - apply (mget_None_notin _ Neqb_spec). intros I. apply H. rewrite <- (g_keys _ _ _ _ G). exact I.
Qed.
Lemma good_skip : forall x q v b lg, good (x :: q) v b lg -> In (iname x) v -> good q v b lg.
Proof.
  intros x q v b lg G H.
  assert (W : forall n, In n (v ++ names (x :: q)) -> In n (v ++ names q)).
  { intros n I. apply in_app_or in I. apply in_or_app. destruct I as [I|[<-|I]]; [left; exact I|left; exact H|right; exact I]. }
  destruct G. constructor; try assumption.
  - intros y Y. apply g_q0. right. exact Y.
  - intros e A B D. apply W. apply g_seed0; assumption.
  - intros e e' A B D. apply W. exact (g_next0 e e' A B D).
Qed.
Lemma good_visit : forall x q v b lg t d,
  good (x :: q) v b lg -> ~ In (iname x) v -> device (iname x) (irev x) = Some t -> deps_of t = Some d ->
  welcome x b = Ok Added ->
  good (q ++ unseen (v ++ [iname x]) (pushes lib x d)) (v ++ [iname x]) (after x t b) (lg ++ [(iname x, irev x)]).
Proof.
  intros x q v b lg t d G H T D Wl.
  assert (TX : text_of device (as_entry x) = Some t) by (unfold text_of; rewrite <- iname_entry, <- irev_entry; exact T).
  pose proof (g_q _ _ _ _ G x (or_introl eq_refl)) as [NX PX].
  pose proof (needed_listed _ _ _ NX) as LX.
  set (q' := q ++ unseen (v ++ [iname x]) (pushes lib x d)).
  assert (W : forall n, In n (v ++ names (x :: q)) -> In n ((v ++ [iname x]) ++ names q')).
  { intros n I. rewrite !in_app_iff in *. cbn in I. unfold q', names. rewrite map_app, in_app_iff. cbn. intuition. }
  assert (RX : readable device deps_of (as_entry x)) by (exists t, d; split; assumption).
  assert (TB : b_texts (after x t b) = b_texts b ++ [(iname x, t)]) by (destruct x; reflexivity).
  constructor.
  - intros y Y. unfold q' in Y. apply in_app_or in Y. destruct Y as [Y|Y]; [apply (g_q _ _ _ _ G); right; exact Y|].
    apply unseen_in in Y. destruct (pushes_sound _ _ _ _ _ K T D (proj1 Y)) as [A B].
    split; [exact (needed_direct _ _ _ _ NX A)|].
    destruct y; try exact I; (destruct B as [-> [_ B]]; exists (as_entry x); rewrite iname_entry; repeat split; assumption).
  - rewrite TB, map_app, (g_keys _ _ _ _ G). reflexivity.
  - intros n u I. rewrite TB in I. apply in_snoc in I. destruct I as [I|I]; [exact (g_texts _ _ _ _ G n u I)|]. inv I.
    exists (as_entry x). rewrite iname_entry. repeat split; assumption.
  - intros e A B I. apply W. exact (g_seed _ _ _ _ G e A B I).
  - intros e e' A B I. apply in_snoc in A. destruct A as [A|A]; [apply W; exact (g_next _ _ _ _ G e e' A B I)|].
    rewrite iname_entry in A. pose proof (C e (as_entry x) (needed_listed _ _ _ B) LX A) as ->.
    destruct (pushes_complete _ _ _ _ _ K T D I) as [y [Y1 Y2]].
    destruct (in_dec N.eq_dec (iname y) (v ++ [iname x])) as [J|J].
    + apply in_or_app. left. rewrite <- Y2. exact J.
    + apply in_or_app. right. unfold q', names. rewrite map_app. apply in_or_app. right. rewrite <- Y2. apply in_map.
      apply unseen_in. split; assumption.
  - intros m. pose proof (g_m _ _ _ _ G m) as A. rewrite in_snoc. destruct x as [m'|p s|i|p s]; cbn [after b_mods].
    + rewrite in_snoc, A. split.
      * intros [[B E]|E]; [split; [exact B|left; exact E]|]. subst m'. split; [exact LX|right; reflexivity].
      * intros [B [E|E]]; [left; split; assumption|right]. assert (Q : EMod m = EMod m') by (apply C; [exact B|exact LX|exact E]). inv Q. reflexivity.
    + rewrite A. split; [intros [B E]; split; [exact B|left; exact E]|]. intros [B [E|E]]; [split; assumption|].
      exfalso. assert (Q : EMod m = ESub s) by (apply C; [exact B|exact LX|exact E]). discriminate Q.
    + rewrite A. split; [intros [B E]; split; [exact B|left; exact E]|]. intros [B [E|E]]; [split; assumption|].
      exfalso. assert (Q : EMod m = EImp i) by (apply C; [exact B|exact LX|exact E]). discriminate Q.
    + rewrite A. split; [intros [B E]; split; [exact B|left; exact E]|]. intros [B [E|E]]; [split; assumption|].
      exfalso. assert (Q : EMod m = ESub s) by (apply C; [exact B|exact LX|exact E]). discriminate Q.
  - intros n l. pose proof (g_i _ _ _ _ G n l) as A.
    assert (O : b_imps (after x t b) = b_imps b -> (forall i, as_entry x <> EImp i) ->
       (In (n, l) (b_imps (after x t b)) <-> exists i, l = [i] /\ n = im_name i /\ listed lib (EImp i) /\ In n (v ++ [iname x]))).
    { intros B E. rewrite B, A. split.
      - intros [i [F [F1 [F2 F3]]]]. exists i. rewrite in_snoc. repeat split; try assumption; [exact (proj1 F2)|exact (proj2 F2)|left; exact F3].
      - intros [i [F [F1 [F2 F3]]]]. exists i. rewrite in_snoc in F3. repeat split; try assumption; [exact (proj1 F2)|exact (proj2 F2)|].
        destruct F3 as [F3|F3]; [exact F3|]. exfalso. apply (E i). symmetry. apply C; [exact F2|exact LX|]. rewrite <- iname_entry. cbn. congruence. }
    destruct x as [m'|p s|i|p s]; try (apply O; [reflexivity|discriminate]). cbn [after b_imps]. rewrite in_snoc, A. split.
    + intros [[j [F [F1 [F2 F3]]]]|E].
      * exists j. rewrite in_snoc. repeat split; try assumption; [exact (proj1 F2)|exact (proj2 F2)|left; exact F3].
      * inv E. exists i. rewrite in_snoc. repeat split; [exact (proj1 LX)|exact (proj2 LX)|right; reflexivity].
    + intros [j [F [F1 [F2 F3]]]]. rewrite in_snoc in F3. destruct F3 as [F3|F3].
      * left. exists j. repeat split; try assumption; [exact (proj1 F2)|exact (proj2 F2)].
      * right. assert (Q : EImp j = EImp i) by (apply C; [exact F2|exact LX|cbn; cbn in F3; congruence]). inv Q. reflexivity.
  - intros n s. pose proof (g_s _ _ _ _ G n s) as A.
    assert (O : b_subs (after x t b) = b_subs b -> (forall s, as_entry x <> ESub s) ->
       (In (n, s) (b_subs (after x t b)) <-> n = sb_name s /\ listed lib (ESub s) /\ In n (v ++ [iname x]))).
    { intros B E. rewrite B, A, in_snoc. split.
      - intros [F [F1 F2]]. repeat split; [exact F|exact (proj1 F1)|exact (proj2 F1)|left; exact F2].
      - intros [F [F1 F2]]. repeat split; [exact F|exact (proj1 F1)|exact (proj2 F1)|].
        destruct F2 as [F2|F2]; [exact F2|]. exfalso. apply (E s). symmetry. apply C; [exact F1|exact LX|]. rewrite <- iname_entry. cbn. congruence. }
    assert (O2 : forall s0, as_entry x = ESub s0 -> b_subs (after x t b) = b_subs b ++ [(sb_name s0, s0)] ->
       (In (n, s) (b_subs (after x t b)) <-> n = sb_name s /\ listed lib (ESub s) /\ In n (v ++ [iname x]))).
    { intros s0 E B. rewrite B, in_snoc, A, in_snoc, iname_entry, E. cbn [e_name]. split.
      - intros [[F [F1 F2]]|F].
        + repeat split; [exact F|exact (proj1 F1)|exact (proj2 F1)|left; exact F2].
        + inv F. rewrite E in LX. repeat split; [exact (proj1 LX)|exact (proj2 LX)|right; reflexivity].
      - intros [F [F1 F2]]. destruct F2 as [F2|F2].
        + left. repeat split; [exact F|exact (proj1 F1)|exact (proj2 F1)|exact F2].
        + right. assert (Q : ESub s = ESub s0) by (apply C; [exact F1|rewrite <- E; exact LX|cbn; congruence]). inv Q. reflexivity. }
    destruct x as [m'|p s0|i|p s0].
    + apply O; [reflexivity|discriminate].
    + apply (O2 s0); reflexivity.
    + apply O; [reflexivity|discriminate].
    + apply (O2 s0); reflexivity.
  - intros s L I. apply in_snoc in I. destruct I as [I|I]; [exact (g_by _ _ _ _ G s L I)|].
    rewrite iname_entry in I. pose proof (C (ESub s) (as_entry x) L LX I) as E.
    destruct x as [m'|p s0|i|p s0]; try discriminate E; inv E; destruct PX as [e [P1 [P2 P3]]]; exists e;
      (split; [exact P1|split; [|exact P3]]); cbn in Wl.
    + destruct (get_mod p (b_mods b)) as [m|] eqn:F; [|discriminate Wl]. apply get_mod_some in F. destruct F as [F1 F2].
      apply (g_m _ _ _ _ G) in F1. pose proof (C e (EMod m) (needed_listed _ _ _ P1) (proj1 F1)) as Q. rewrite Q; [intros []|cbn; congruence].
    + destruct (mget N.eqb p (b_imps b)) as [l|] eqn:F; [|discriminate Wl]. apply (mget_In _ Neqb_spec) in F.
      apply (g_i _ _ _ _ G) in F. destruct F as [i [_ [F1 [F2 _]]]].
      pose proof (C e (EImp i) (needed_listed _ _ _ P1) F2) as Q. rewrite Q; [intros []|cbn; congruence].
  - rewrite map_app, (g_log1 _ _ _ _ G). reflexivity.
  - intros n r I. apply in_snoc in I. destruct I as [I|I]; [exact (g_log2 _ _ _ _ G n r I)|]. inv I.
    exists (as_entry x). rewrite iname_entry, irev_entry. repeat split; assumption.
  - apply (Permutation_NoDup (l := iname x :: v)); [apply Permutation_cons_append|constructor; [exact H|exact (g_nd _ _ _ _ G)]].
Qed.

Lemma good_bfs : forall n q v b lg lg' b', good q v b lg -> bfs lib n q v b lg = (lg', Ok b') ->
  exists v', good [] v' b' lg'.
Proof.
  induction n as [|n IH]; intros q; induction q as [|x q IHq]; intros v b lg lg' b' G H;
    try (rewrite bfs_nil in H; inv H; exists v; exact G); rewrite bfs_cons in H;
    (destruct (mem (iname x) v) eqn:M; [apply mem_in in M; exact (IHq _ _ _ _ _ (good_skip _ _ _ _ _ G M) H)|]); [discriminate H|].
  apply mem_out in M. destruct (device (iname x) (irev x)) as [t|] eqn:T; [|discriminate H].
  destruct (deps_of t) as [d|] eqn:D; [|discriminate H].
  destruct (add_item_fresh x t b (good_fresh _ _ _ _ _ G M)) as [A B].
  destruct (add_item x t b) as [b1 [a|e| |]] eqn:E; try discriminate H. cbn in A, B.
  assert (W : welcome x b = Ok Added).
  { rewrite <- A. destruct x; cbn in A; repeat match type of A with context [match ?c with _ => _ end] => destruct c end; congruence. }
  rewrite (B W) in H. exact (IH _ _ _ _ _ _ (good_visit _ _ _ _ _ _ _ G M T D W) H).
Qed.
Lemma all_seeds_complete : forall l q, all_seeds lib l = Ok q -> forall e, listed lib e -> ~ is_sub e ->
  In (e_name e) l -> In (e_name e) (names q).
Proof.
  induction l as [|n r IH]; intros q H e L S I; [destruct I|]. cbn in H.
  destruct (seed_items lib n) as [a|] eqn:E; [|discriminate H].
  destruct (all_seeds lib r) as [q'| | |] eqn:F; cbn in H; inv H. unfold names. rewrite map_app. apply in_or_app.
  destruct I as [I|I].
  - left. destruct (seed_items_complete _ _ K L S) as [l [x [A [B D]]]]. rewrite <- I, E in A. inv A.
    rewrite <- D. apply in_map. exact B.
  - right. exact (IH q' eq_refl e L S I).
Qed.
Lemma good_start : forall q, all_seeds lib seeds = Ok q -> good q [] new_builder [].
Proof.
  intros q H. constructor.
  - intros x X. destruct (all_seeds_in _ _ _ K H x X) as [A [B D]]. split.
    + apply NeedSeed; [exact A|exact D|rewrite <- iname_entry; exact B].
    + destruct x; try exact I; exfalso; apply D; exact I.
  - reflexivity.
  - intros n t [].
  - intros e A B I. exact (all_seeds_complete _ _ H e A B I).
  - intros e e' [].
  - intros m. split; [intros []|intros [_ []]].
  - intros n l. split; [intros []|intros [i [_ [_ [_ []]]]]].
  - intros n s. split; [intros []|intros [_ [_ []]]].
  - intros s _ [].
  - reflexivity.
  - intros n r [].
  - constructor.
Qed.
Lemma good_closed : forall v b lg e, good [] v b lg -> needed lib seeds e -> In (e_name e) v.
Proof.
  intros v b lg e G H. assert (W : forall n, In n (v ++ names []) -> In n v) by (intros n; rewrite app_nil_r; auto).
  induction H as [e L S I|e e' N IH A L S|e e' N IH A L S|e m N IH R A L].
  - apply W. exact (g_seed _ _ _ _ G e L S I).
  - apply W. apply (g_next _ _ _ _ G e e' IH N). split; [exact L|left; split; assumption].
  - apply W. apply (g_next _ _ _ _ G e e' IH N). split; [exact L|right; left; split; assumption].
  - apply W. apply (g_next _ _ _ _ G e (EMod m) IH N). split; [exact L|right; right]. repeat split; [exact R|exact A|exists m; reflexivity].
Qed.
Lemma good_named : forall v b lg n, good [] v b lg -> In n v -> exists e, needed lib seeds e /\ e_name e = n.
Proof.
  intros v b lg n G H. rewrite <- (g_keys _ _ _ _ G) in H. apply in_map_iff in H. destruct H as [[n' t] [E H]]. cbn in E. subst n'.
  destruct (g_texts _ _ _ _ G n t H) as [e [A [B _]]]. exists e. split; assumption.
Qed.
Lemma good_in : forall v b lg e, good [] v b lg -> listed lib e -> In (e_name e) v -> needed lib seeds e.
Proof.
  intros v b lg e G L H. destruct (good_named _ _ _ _ G H) as [e' [A B]].
  rewrite <- (C e' e (needed_listed _ _ _ A) L B). exact A.
Qed.
End Inv.

(* ---- the last step: the content id over all texts ---- *)
Lemma musts_ok : forall texts l, (forall n, In n l -> In n (map fst texts)) ->
  exists t, musts texts l = Ok t.
Proof.
  intros texts. induction l as [|n r IH]; intros H; cbn; [eexists; reflexivity|]. unfold must.
  destruct (mget N.eqb n texts) as [t|] eqn:E.
  - destruct (IH (fun m I => H m (or_intror I))) as [u ->]. cbn. eexists. reflexivity.
  - exfalso. exact (proj1 (mget_None_notin _ Neqb_spec _ _) E (H n (or_introl eq_refl))).
Qed.
Lemma musts_panic : forall texts l n, In n l -> ~ In n (map fst texts) -> musts texts l = Panic.
Proof.
  intros texts. induction l as [|m r IH]; intros n I H; [destruct I|]. cbn. unfold must.
  destruct (mget N.eqb m texts) as [t|] eqn:E; [|reflexivity]. destruct I as [->|I].
  - exfalso. apply H. exact (mget_Some_in _ Neqb_spec _ _ _ E).
  - rewrite (IH n I H). reflexivity.
Qed.
Lemma all_octets_ok : forall {A} (f : A -> lres octets) l, (forall x, In x l -> exists t, f x = Ok t) ->
  exists t, all_octets f l = Ok t.
Proof.
  intros A f. induction l as [|x r IH]; intros H; cbn; [eexists; reflexivity|].
  destruct (H x (or_introl eq_refl)) as [t ->]. destruct (IH (fun y Y => H y (or_intror Y))) as [u ->]. cbn. eexists. reflexivity.
Qed.
Lemma all_octets_panic : forall {A} (f : A -> lres octets) l, (forall x, In x l -> f x = Panic \/ exists t, f x = Ok t) ->
  forall x, In x l -> f x = Panic -> all_octets f l = Panic.
Proof.
  intros A f. induction l as [|y r IH]; intros H x I E; [destruct I|]. cbn.
  destruct (H y (or_introl eq_refl)) as [->|[t F]]; [reflexivity|]. rewrite F. cbn. destruct I as [->|I]; [congruence|].
  rewrite (IH (fun z Z => H z (or_intror Z)) x I E). reflexivity.
Qed.
(* the names whose texts are read for the content id *)
Definition read_names (b : builder) : list name :=
  flat_map (fun m => map sb_name (md_subs m) ++ [md_name m]) (b_mods b) ++
  flat_map (fun i => map sb_name (im_subs i) ++ [im_name i]) (flat_map snd (b_imps b)).
Lemma musts_total : forall texts l, musts texts l = Panic \/ exists t, musts texts l = Ok t.
Proof.
  intros texts. induction l as [|n r IH]; cbn; [right; eexists; reflexivity|]. unfold must.
  destruct (mget N.eqb n texts); [|left; reflexivity]. destruct IH as [->|[t ->]]; cbn; [left; reflexivity|right; eexists; reflexivity].
Qed.
Lemma build_ok : forall b, (forall n, In n (read_names b) -> In n (map fst (b_texts b))) -> exists L, build hash b = Ok L.
Proof.
  intros b H. unfold build.
  destruct (all_octets_ok (mod_octets (b_texts b)) (b_mods b)) as [t ->].
  { intros m I. unfold mod_octets. destruct (musts_ok (b_texts b) (map sb_name (md_subs m) ++ [md_name m])) as [t ->].
    - intros n J. apply H. unfold read_names. apply in_or_app. left. apply in_flat_map. exists m. split; assumption.
    - eexists. reflexivity. }
  destruct (all_octets_ok (imp_octets (b_texts b)) (flat_map snd (b_imps b))) as [u ->].
  { intros m I. apply musts_ok. intros n J. apply H. unfold read_names. apply in_or_app. right. apply in_flat_map. exists m. split; assumption. }
  eexists. reflexivity.
Qed.
Lemma build_panic : forall b n, In n (read_names b) -> ~ In n (map fst (b_texts b)) -> build hash b = Panic.
Proof.
  intros b n I H. unfold build, read_names in *.
  assert (T : forall m, mod_octets (b_texts b) m = Panic \/ exists t, mod_octets (b_texts b) m = Ok t).
  { intros m. unfold mod_octets. destruct (musts_total (b_texts b) (map sb_name (md_subs m) ++ [md_name m])) as [->|[t ->]]; [left; reflexivity|right; eexists; reflexivity]. }
  apply in_app_or in I. destruct I as [I|I]; apply in_flat_map in I; destruct I as [m [I J]].
  - rewrite (all_octets_panic (mod_octets (b_texts b)) (b_mods b) (fun x _ => T x) m I); [reflexivity|].
    unfold mod_octets. rewrite (musts_panic _ _ _ J H). reflexivity.
  - destruct (all_octets (mod_octets (b_texts b)) (b_mods b)) as [t|e| |] eqn:E; try reflexivity.
    + cbn. rewrite (all_octets_panic (imp_octets (b_texts b)) _ (fun x _ => musts_total _ _) m I); [reflexivity|].
      exact (musts_panic _ _ _ J H).
    + exfalso. revert E. induction (b_mods b) as [|y r IH]; cbn; [discriminate|]. destruct (T y) as [->|[t ->]]; [discriminate|]. cbn.
      destruct (all_octets (mod_octets (b_texts b)) r); try discriminate. exact IH.
    + exfalso. revert E. induction (b_mods b) as [|y r IH]; cbn; [discriminate|]. destruct (T y) as [->|[t ->]]; [discriminate|]. cbn.
      destruct (all_octets (mod_octets (b_texts b)) r); try discriminate. exact IH.
Qed.
Lemma build_fields : forall b L, build hash b = Ok L -> l_mods L = b_mods b /\ l_imps L = b_imps b /\ l_texts L = b_texts b.
Proof.
  intros b L H. unfold build in H. destruct (all_octets (mod_octets (b_texts b)) (b_mods b)); try discriminate H. cbn in H.
  destruct (all_octets (imp_octets (b_texts b)) (flat_map snd (b_imps b))); try discriminate H. inv H. repeat split.
Qed.

Lemma load_good : forall lib seeds lg L, keyed lib -> clear lib -> load lib seeds = (lg, Ok L) ->
  exists v b, good lib seeds [] v b lg /\ build hash b = Ok L.
Proof.
  intros lib seeds lg L K C H. unfold YlModel.load, YlModel.load_upto in H.
  destruct (all_seeds lib seeds) as [q|e| |] eqn:E; try discriminate H.
  destruct (bfs lib (length (lib_names lib)) q [] new_builder []) as [lg' [b|e| |]] eqn:F; try discriminate H. injection H as -> B.
  destruct (good_bfs lib seeds K C _ _ _ _ _ _ _ (good_start lib seeds K q E) F) as [v G]. exists v, b. split; [exact G|exact B].
Qed.
Lemma load_texts : forall lib seeds lg L, keyed lib -> clear lib -> load lib seeds = (lg, Ok L) -> forall n t,
  In (n, t) (l_texts L) <-> exists e, needed lib seeds e /\ e_name e = n /\ text_of device e = Some t.
Proof.
  intros lib seeds lg L K C H n t. destruct (load_good _ _ _ _ K C H) as [v [b [G B]]].
  destruct (build_fields _ _ B) as [_ [_ ->]]. split.
  - intros I. destruct (g_texts _ _ _ _ _ _ G n t I) as [e [A1 [A2 [A3 _]]]]. exists e. repeat split; assumption.
  - intros [e [N [E T]]]. pose proof (good_closed _ _ _ _ _ _ G N) as I.
    rewrite <- (g_keys _ _ _ _ _ _ G) in I. apply in_map_iff in I. destruct I as [[n' t'] [E' I]]. cbn in E'.
    destruct (g_texts _ _ _ _ _ _ G n' t' I) as [e' [A1 [A2 [A3 _]]]].
    assert (Q : e' = e) by (apply C; [exact (needed_listed _ _ _ A1)|exact (needed_listed _ _ _ N)|congruence]).
    subst e'. rewrite T in A3. inv A3. exact I.
Qed.
Lemma load_names : forall lib seeds lg L, keyed lib -> clear lib -> load lib seeds = (lg, Ok L) -> NoDup (map fst (l_texts L)).
Proof.
  intros lib seeds lg L K C H. destruct (load_good _ _ _ _ K C H) as [v [b [G B]]].
  destruct (build_fields _ _ B) as [_ [_ ->]]. pose proof (g_nd _ _ _ _ _ _ G) as D. rewrite <- (g_keys _ _ _ _ _ _ G) in D. exact D.
Qed.
Lemma load_mods : forall lib seeds lg L, keyed lib -> clear lib -> load lib seeds = (lg, Ok L) -> forall m,
  In m (l_mods L) <-> needed lib seeds (EMod m).
Proof.
  intros lib seeds lg L K C H m. destruct (load_good _ _ _ _ K C H) as [v [b [G B]]].
  destruct (build_fields _ _ B) as [-> _]. rewrite (g_m _ _ _ _ _ _ G). split.
  - intros [A I]. exact (good_in _ _ C _ _ _ (EMod m) G A I).
  - intros N. split; [exact (needed_listed _ _ _ N)|exact (good_closed _ _ _ _ _ _ G N)].
Qed.
Lemma load_imps : forall lib seeds lg L, keyed lib -> clear lib -> load lib seeds = (lg, Ok L) -> forall n l,
  In (n, l) (l_imps L) <-> exists i, l = [i] /\ im_name i = n /\ needed lib seeds (EImp i).
Proof.
  intros lib seeds lg L K C H n l. destruct (load_good _ _ _ _ K C H) as [v [b [G B]]].
  destruct (build_fields _ _ B) as [_ [-> _]]. rewrite (g_i _ _ _ _ _ _ G). split.
  - intros [i [-> [-> [A I]]]]. exists i. repeat split. exact (good_in _ _ C _ _ _ (EImp i) G A I).
  - intros [i [-> [<- N]]]. exists i. pose proof (needed_listed _ _ _ N) as [N1 N2]. repeat split; try assumption. exact (good_closed _ _ _ _ _ _ G N).
Qed.
Lemma load_requests : forall lib seeds lg L, keyed lib -> clear lib -> load lib seeds = (lg, Ok L) -> forall n r,
  In (n, r) lg <-> exists e, needed lib seeds e /\ e_name e = n /\ e_rev e = r.
Proof.
  intros lib seeds lg L K C H n r. destruct (load_good _ _ _ _ K C H) as [v [b [G B]]]. split.
  - exact (g_log2 _ _ _ _ _ _ G n r).
  - intros [e [N [E R]]]. pose proof (good_closed _ _ _ _ _ _ G N) as I. rewrite <- (g_log1 _ _ _ _ _ _ G) in I.
    apply in_map_iff in I. destruct I as [[n' r'] [E' I]]. cbn in E'.
    destruct (g_log2 _ _ _ _ _ _ G n' r' I) as [e' [A1 [A2 A3]]].
    assert (Q : e' = e) by (apply C; [exact (needed_listed _ _ _ A1)|exact (needed_listed _ _ _ N)|congruence]).
    subst e'. replace n with n' by congruence. replace r with r' by congruence. exact I.
Qed.
Lemma load_sub_by_module : forall lib seeds lg L s, keyed lib -> clear lib -> load lib seeds = (lg, Ok L) ->
  needed lib seeds (ESub s) ->
  exists e, needed lib seeds e /\ ~ is_sub e /\ includes device deps_of e (sb_name s).
Proof.
  intros lib seeds lg L s K C H N. destruct (load_good _ _ _ _ K C H) as [v [b [G B]]].
  exact (g_by _ _ _ _ _ _ G s (needed_listed _ _ _ N) (good_closed _ _ _ _ _ _ G N)).
Qed.
(* what the final builder reads *)
Lemma good_reads : forall lib seeds v b lg, clear lib -> good lib seeds [] v b lg -> forall n,
  In n (read_names b) <-> exists e, needed lib seeds e /\ ~ is_sub e /\ (n = e_name e \/ In n (map sb_name (subs_of e))).
Proof.
  intros lib seeds v b lg C G n. unfold read_names. rewrite in_app_iff, !in_flat_map. split.
  - intros [[m [I J]]|[i [I J]]].
    + apply (g_m _ _ _ _ _ _ G) in I. exists (EMod m). split; [exact (good_in _ _ C _ _ _ (EMod m) G (proj1 I) (proj2 I))|].
      split; [intros []|]. apply in_snoc in J. destruct J as [J|J]; [right; exact J|left; exact J].
    + apply in_flat_map in I. destruct I as [[n' l] [I I']]. apply (g_i _ _ _ _ _ _ G) in I. destruct I as [j [-> [-> [A B]]]].
      destruct I' as [<-|[]]. exists (EImp j). split; [exact (good_in _ _ C _ _ _ (EImp j) G A B)|].
      split; [intros []|]. apply in_snoc in J. destruct J as [J|J]; [right; exact J|left; exact J].
  - intros [e [N [S H]]]. pose proof (good_closed _ _ _ _ _ _ G N) as V. pose proof (needed_listed _ _ _ N) as L.
    destruct e as [m|i|s]; [left|right|exfalso; apply S; exact I].
    + exists m. split; [apply (g_m _ _ _ _ _ _ G); split; assumption|]. apply in_snoc. destruct H as [H|H]; [right; exact H|left; exact H].
    + exists i. split; [|apply in_snoc; destruct H as [H|H]; [right; exact H|left; exact H]].
      apply in_flat_map. exists (im_name i, [i]). split; [|left; reflexivity]. apply (g_i _ _ _ _ _ _ G). exists i.
      repeat split; [exact (proj1 L)|exact (proj2 L)|exact V].
Qed.
Lemma load_needs_subs : forall lib seeds lg L, keyed lib -> clear lib -> load lib seeds = (lg, Ok L) -> subs_needed device deps_of lib seeds.
Proof.
  intros lib seeds lg L K C H e s N I. destruct (load_good _ _ _ _ K C H) as [v [b [G B]]].
  destruct (in_dec N.eq_dec (sb_name s) v) as [V|V]; [exact (good_named _ _ _ _ _ _ G V)|exfalso].
  assert (P : build hash b = Panic).
  { apply (build_panic b (sb_name s)); [|exact (fun X => V (eq_rect _ (In (sb_name s)) X _ (g_keys _ _ _ _ _ _ G)))].
    apply (good_reads _ _ _ _ _ C G). exists e. split; [exact N|]. split; [destruct e; [intros []|intros []|destruct I]|].
    right. apply in_map. exact I. }
  rewrite P in B. discriminate B.
Qed.

(* ---- when loading succeeds ---- *)
Section Success.
Variable lib : library.
Variable seeds : list name.
Hypothesis K : keyed lib.
Hypothesis C : clear lib.
Hypothesis R : all_readable device deps_of lib seeds.
Hypothesis OI : own_includes device deps_of lib seeds.

(* The first item of a name not visited is welcome when its turn comes. *)
Definition timely (q : list item) (v : list name) (b : builder) : Prop :=
  (forall p s, ~ In (OnlySub p s) q) /\
  forall q1 p s q2, q = q1 ++ FullSub p s :: q2 -> ~ In (sb_name s) (v ++ names q1) ->
    exists m, get_mod p (b_mods b) = Some m /\ existsb (sub_is (sb_name s)) (md_subs m) = true.
Lemma timely_skip : forall x q v b, timely (x :: q) v b -> In (iname x) v -> timely q v b.
Proof.
  intros x q v b [T1 T2] H. split; [intros p s I; exact (T1 p s (or_intror I))|].
  intros q1 p s q2 E N. apply (T2 (x :: q1) p s q2); [rewrite E; reflexivity|].
  intros I. apply N. apply in_app_or in I. apply in_or_app. destruct I as [I|[I|I]]; [left; exact I| |right; exact I].
  left. rewrite <- I. exact H.
Qed.
Lemma timely_welcome : forall x q v b, timely (x :: q) v b -> ~ In (iname x) v -> welcome x b = Ok Added.
Proof.
  intros x q v b [T1 T2] H. destruct x as [m|p s|i|p s]; cbn; try reflexivity.
  - destruct (T2 [] p s q eq_refl) as [m [-> ->]]; [rewrite app_nil_r; exact H|reflexivity].
  - exfalso. exact (T1 p s (or_introl eq_refl)).
Qed.
Lemma split_app : forall {A} (a b c : list A) x d, a ++ b = c ++ x :: d ->
  (exists e, a = c ++ x :: e /\ d = e ++ b) \/ (exists e, c = a ++ e /\ b = e ++ x :: d).
Proof.
  intros A. induction a as [|y a IH]; intros b c x d H; [right; exists c; split; [reflexivity|exact H]|].
  destruct c as [|z c]; cbn in H; inv H; [left; exists a; split; reflexivity|].
  destruct (IH _ _ _ _ H2) as [[e [-> ->]]|[e [-> ->]]]; [left|right]; exists e; split; reflexivity.
Qed.
Lemma get_mod_app : forall n l l', get_mod n (l ++ l') = match get_mod n l with Some m => Some m | None => get_mod n l' end.
Proof. intros n l l'. unfold get_mod. induction l as [|x r IH]; cbn; [reflexivity|]. destruct (mod_is n x); [reflexivity|exact IH]. Qed.
Lemma get_mod_after : forall x t b n m, get_mod n (b_mods b) = Some m -> get_mod n (b_mods (after x t b)) = Some m.
Proof. intros x t b n m H. destruct x; cbn [after b_mods]; try exact H. rewrite get_mod_app, H. reflexivity. Qed.
Lemma timely_visit : forall x q v b lg t d, good lib seeds (x :: q) v b lg -> timely (x :: q) v b ->
  ~ In (iname x) v -> device (iname x) (irev x) = Some t -> deps_of t = Some d ->
  timely (q ++ unseen (v ++ [iname x]) (pushes lib x d)) (v ++ [iname x]) (after x t b).
Proof.
  intros x q v b lg t d G T H TX D. pose proof (g_q _ _ _ _ _ _ G x (or_introl eq_refl)) as [NX PX].
  pose proof (timely_welcome _ _ _ _ T H) as W. pose proof (good_fresh _ _ _ _ _ _ _ G H) as F.
  destruct OI as [O1 [O2 O3]]. split.
  - intros p s I. apply in_app_or in I. destruct I as [I|I]; [exact (proj1 T p s (or_intror I))|].
    apply unseen_in in I. destruct (pushes_sound _ _ _ _ _ K TX D (proj1 I)) as [[L DI] [-> [B1 B2]]].
    destruct x as [m'|p' s'|i|p' s']; try discriminate B1.
    + exact (O3 i (sb_name s) NX B2 (ESub s) L eq_refl).
    + exact (proj1 T p' s' (or_introl eq_refl)).
  - intros q1 p s q2 E N. apply split_app in E. destruct E as [[e [E1 E2]]|[e [E1 E2]]].
    + destruct (proj2 T (x :: q1) p s e) as [m [A B]].
      * rewrite E1. reflexivity.
      * intros I. apply N. rewrite !in_app_iff in *. cbn in *. tauto.
      * exists m. split; [exact (get_mod_after _ _ _ _ _ A)|exact B].
    + assert (I : In (FullSub p s) (unseen (v ++ [iname x]) (pushes lib x d))) by (rewrite E2; apply in_or_app; right; left; reflexivity).
      apply unseen_in in I. destruct (pushes_sound _ _ _ _ _ K TX D (proj1 I)) as [DI [-> [B1 B2]]].
      destruct x as [m'|p' s'|i|p' s']; try discriminate B1.
      * exists m'. split.
        -- cbn [after b_mods iname]. rewrite get_mod_app. rewrite (proj1 F : get_mod (md_name m') (b_mods b) = None). unfold get_mod. cbn. unfold mod_is. rewrite N.eqb_refl. reflexivity.
        -- destruct (O1 m' (sb_name s) NX B2) as [s' [S1 S2]]. apply existsb_exists. exists s'. split; [exact S1|unfold sub_is; lia].
      * exfalso. cbn in W. destruct (get_mod p' (b_mods b)) as [m|] eqn:M; [|discriminate W].
        destruct (existsb (sub_is (sb_name s')) (md_subs m)) eqn:X; [|discriminate W].
        apply existsb_exists in X. destruct X as [s'' [X1 X2]]. apply get_mod_some in M. destruct M as [M1 M2].
        apply (g_m _ _ _ _ _ _ G) in M1. destruct M1 as [M1 M3]. pose proof (needed_listed _ _ _ NX) as LX.
        unfold sub_is in X2. assert (X3 : sb_name s'' = sb_name s') by lia.
        assert (Q : ESub s'' = ESub s').
        { apply C; [|exact LX|exact X3]. split; [exists m; split; assumption|]. rewrite X3. exact (proj2 LX). }
        inv Q.
        assert (NM : needed lib seeds (EMod m)).
        { rewrite <- (g_keys _ _ _ _ _ _ G) in M3. apply in_map_iff in M3. destruct M3 as [[n u] [E3 M3]]. cbn in E3. subst n.
          destruct (g_texts _ _ _ _ _ _ G _ _ M3) as [e' [Y1 [Y2 _]]].
          rewrite <- (C e' (EMod m) (needed_listed _ _ _ Y1) M1 Y2). exact Y1. }
        pose proof (O2 m s' (sb_name s) NM X1 NX B2) as B3.
        assert (DM : direct lib (EMod m) (ESub s)).
        { destruct DI as [DI _]. split; [exact DI|]. right. left. split; [exact B3|intros []]. }
        pose proof (g_next _ _ _ _ _ _ G (EMod m) (ESub s) M3 NM DM) as Z. apply N. unfold names in *. rewrite map_app.
        rewrite !in_app_iff in *. cbn in *. tauto.
Qed.
Lemma bfs_success : forall n q v b lg, good lib seeds q v b lg -> timely q v b ->
  snd (bfs lib n q v b lg) <> Diverge -> exists lg' b', bfs lib n q v b lg = (lg', Ok b').
Proof.
  induction n as [|n IH]; intros q; induction q as [|x q IHq]; intros v b lg G T H;
    try (rewrite bfs_nil; eexists; eexists; reflexivity); rewrite bfs_cons in *;
    (destruct (mem (iname x) v) eqn:M;
      [apply mem_in in M; exact (IHq _ _ _ (good_skip _ _ _ _ _ _ _ G M) (timely_skip _ _ _ _ T M) H)|]).
  - exfalso. apply H. reflexivity.
  - apply mem_out in M. destruct (R _ (proj1 (g_q _ _ _ _ _ _ G x (or_introl eq_refl)))) as [t [d [E D]]].
    unfold text_of in E. rewrite <- iname_entry, <- irev_entry in E. rewrite E, D in *.
    pose proof (timely_welcome _ _ _ _ T M) as W.
    destruct (add_item_fresh x t b (good_fresh _ _ _ _ _ _ _ G M)) as [A B].
    rewrite W in A. specialize (B W). destruct (add_item x t b) as [b1 r]. cbn in A, B. subst r b1.
    apply IH; [exact (good_visit _ _ K C _ _ _ _ _ _ _ G M E D W)|exact (timely_visit _ _ _ _ _ _ _ G T M E D)|exact H].
Qed.
Hypothesis SK : seeds_known lib seeds.
Lemma all_seeds_ok : forall l, (forall n, In n l -> In n seeds) -> exists q, all_seeds lib l = Ok q.
Proof.
  induction l as [|n r IH]; intros H; [eexists; reflexivity|]. cbn.
  destruct (SK n (H n (or_introl eq_refl))) as [e [L [S E]]]. destruct (seed_items_complete _ _ K L S) as [a [x [A _]]].
  rewrite E in A. rewrite A. destruct (IH (fun m I => H m (or_intror I))) as [q ->]. cbn. eexists. reflexivity.
Qed.
Lemma load_reaches : exists lg v b, good lib seeds [] v b lg /\ load lib seeds = (lg, build hash b).
Proof.
  destruct (all_seeds_ok seeds (fun n I => I)) as [q E]. unfold YlModel.load, YlModel.load_upto. rewrite E.
  assert (T : timely q [] new_builder).
  { split; [intros p s I; exact (proj2 (proj2 (all_seeds_in _ _ _ K E _ I)) Logic.I)|].
    intros q1 p s q2 F. exfalso. assert (I : In (FullSub p s) q) by (rewrite F; apply in_or_app; right; left; reflexivity).
    exact (proj2 (proj2 (all_seeds_in _ _ _ K E _ I)) Logic.I). }
  pose proof (good_start lib seeds K q E) as G.
  destruct (bfs_success (length (lib_names lib)) q [] new_builder [] G T) as [lg [b F]].
  { apply (bfs_ends lib K); [exact (fun x X => proj1 (all_seeds_in _ _ _ K E x X))|constructor|intros x []|cbn; lia]. }
  rewrite F. destruct (good_bfs lib seeds K C _ _ _ _ _ _ _ G F) as [v G']. exists lg, v, b. split; [exact G'|reflexivity].
Qed.
Lemma load_ok : subs_needed device deps_of lib seeds -> exists lg L, load lib seeds = (lg, Ok L).
Proof.
  intros SN. destruct load_reaches as [lg [v [b [G ->]]]]. destruct (build_ok b) as [L ->]; [|exists lg, L; reflexivity].
  intros n I. rewrite (g_keys _ _ _ _ _ _ G). apply (good_reads _ _ _ _ _ C G) in I. destruct I as [e [N [S [->|I]]]].
  - exact (good_closed _ _ _ _ _ _ G N).
  - apply in_map_iff in I. destruct I as [s [<- I]]. destruct (SN e s N I) as [e' [A <-]]. exact (good_closed _ _ _ _ _ _ G A).
Qed.
Lemma load_panics : ~ subs_needed device deps_of lib seeds -> snd (load lib seeds) = Panic.
Proof.
  intros SN. destruct load_reaches as [lg [v [b [G ->]]]]. cbn.
  destruct (Forall_Exists_dec (fun n => In n v) (fun n => in_dec N.eq_dec n v) (read_names b)) as [A|A].
  - exfalso. apply SN. intros e s N I. rewrite Forall_forall in A.
    assert (V : In (sb_name s) v).
    { apply A. apply (good_reads _ _ _ _ _ C G). exists e. split; [exact N|]. split; [destruct e; [intros []|intros []|destruct I]|].
      right. apply in_map. exact I. }
    exact (good_named _ _ _ _ _ _ G V).
  - apply Exists_exists in A. destruct A as [n [A B]]. apply (build_panic b n A). rewrite (g_keys _ _ _ _ _ _ G). exact B.
Qed.
End Success.
End Load.
