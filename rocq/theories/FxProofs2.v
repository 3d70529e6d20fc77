(* Reading filters, and reading back what was written. *)
From Coq Require Import List Bool Arith String Ascii Lia.
From Verif Require Import FxModel FxSpec FxProofs.
Import ListNotations.
Local Open Scope string_scope.
Local Open Scope list_scope.

Notation scope := (list (string * string)).

(* ---- copying a subtree ---- *)
Fixpoint usage (ts : list tok) (sc : list scope) (m : scope) : scope :=
  match ts with
  | [] => m
  | t :: r => usage r (enter r (leave t sc)) (record_usage t sc m)
  end.
Definition no_end (tag : string) (xml : list tok) : Prop := forall p n, In (End p n) xml -> n <> tag.
Lemma no_end_tl tag t xml : no_end tag (t :: xml) -> no_end tag xml.
Proof. intros H p n D. apply (H p n). right; exact D. Qed.
Lemma enter_app xml e sc : (forall x, e <> Start x /\ e <> Empty x) -> forall r, enter (xml ++ e :: r) sc = enter (xml ++ [e]) sc.
Proof. intros _ r. destruct xml; reflexivity. Qed.
Lemma enter_end xml a b r sc : enter (xml ++ End a b :: r) sc = enter xml sc.
Proof. destruct xml; reflexivity. Qed.
Lemma copy_till_at tag xml : forall pre sc m acc,
  balanced (List.length pre) xml -> no_end tag xml -> forall a r,
  copy_till tag (xml ++ End a tag :: r) (enter xml (pre ++ sc)) m acc
  = Some (acc ++ xml, usage xml (enter xml (pre ++ sc)) m, End a tag :: r, sc).
Proof.
  induction xml as [|t xml IH]; intros pre sc m acc B N a r.
  - cbn [balanced] in B. destruct pre; [|discriminate]. cbn. rewrite eqb_refl', app_nil_r. reflexivity.
  - cbn [app copy_till usage].
    assert (D : (match t with End _ l => String.eqb l tag | _ => false end) = false).
    { destruct t; try reflexivity. apply String.eqb_neq. apply (N prefix local). left; reflexivity. }
    rewrite D, enter_end. change (acc ++ t :: xml) with (acc ++ ([t] ++ xml)). rewrite app_assoc.
    assert (H : exists pre', leave t (enter (t :: xml) (pre ++ sc)) = pre' ++ sc /\ balanced (List.length pre') xml).
    { destruct t; cbn [enter leave balanced] in *.
      - exists (e_decls e :: pre). split; [reflexivity|exact B].
      - exists pre. split; [reflexivity|exact B].
      - destruct pre as [|q pre]; [destruct B|]. exists pre. split; [reflexivity|exact B].
      - exists pre; split; [reflexivity|exact B].
      - exists pre; split; [reflexivity|exact B].
      - exists pre; split; [reflexivity|exact B].
      - exists pre; split; [reflexivity|exact B].
      - exists pre; split; [reflexivity|exact B]. }
    destruct H as (pre' & H1 & H2). rewrite H1. exact (IH pre' sc _ _ H2 (no_end_tl _ _ _ N) a r).
Qed.

Lemma map_get_cons {A} k (v : A) p m : map_get p ((k, v) :: m) = if String.eqb k p then Some v else map_get p m.
Proof. unfold map_get. cbn. destruct (String.eqb k p); reflexivity. Qed.
Lemma map_get_insert_new {A} k (v : A) m : map_get k m = None -> map_insert k v m = m ++ [(k, v)].
Proof.
  induction m as [|[k' v'] m IH]; [reflexivity|]. rewrite map_get_cons. cbn [map_insert app].
  destruct (String.eqb k' k); [discriminate|]. intros H. rewrite (IH H). reflexivity.
Qed.
Lemma map_get_app {A} p (m n : list (string * A)) : map_get p (m ++ n) = match map_get p m with Some v => Some v | None => map_get p n end.
Proof.
  induction m as [|[k v] m IH]; [reflexivity|]. cbn [app]. rewrite !map_get_cons, IH.
  destruct (String.eqb k p); reflexivity.
Qed.
Lemma map_get_none {A} p (m : list (string * A)) : ~ In p (map fst m) -> map_get p m = None.
Proof.
  induction m as [|[k v] m IH]; [reflexivity|]. cbn [map In fst]. rewrite map_get_cons. intros H.
  destruct (String.eqb_spec k p); [tauto|]. apply IH. tauto.
Qed.
Lemma map_get_in {A} p (v : A) m : NoDup (map fst m) -> In (p, v) m -> map_get p m = Some v.
Proof.
  induction m as [|[k w] m IH]; [intros _ []|]. cbn [map fst]. rewrite map_get_cons. intros N [H|H]; inversion N; subst.
  - injection H as -> ->. rewrite eqb_refl'. reflexivity.
  - destruct (String.eqb_spec k p); [|auto]. subst. destruct H2. apply (in_map fst) in H. exact H.
Qed.
Lemma map_get_some_in {A} p (v : A) m : map_get p m = Some v -> In (p, v) m.
Proof.
  induction m as [|[k w] m IH]; [discriminate|]. rewrite map_get_cons. destruct (String.eqb_spec k p); intros H.
  - injection H as ->. subst. left; reflexivity.
  - right; auto.
Qed.

Definition elem_in (e : elem) (xml : list tok) : Prop := In (Start e) xml \/ In (Empty e) xml.
Definition transparent (pre : list scope) : Prop := Forall (fun d => d = []) pre.
Lemma resolve_transparent pre sc p : transparent pre -> resolve (pre ++ sc) p = resolve sc p.
Proof. induction 1 as [|d pre H _ IH]; [reflexivity|]. subst. exact IH. Qed.
Definition sees (seen : list string) (m : scope) : Prop := forall p, existsb (String.eqb p) seen = false <-> map_get p m = None.
Lemma sees_add seen m p n : sees seen m -> map_get p m = None -> sees (p :: seen) (m ++ [(p, n)]).
Proof.
  intros H D q. cbn [existsb]. rewrite orb_false_iff, (H q), map_get_app. unfold map_get at 3. cbn.
  destruct (map_get q m) eqn:E.
  - split; [intros [_ X]; discriminate|discriminate].
  - rewrite (String.eqb_sym q p). destruct (String.eqb p q); cbn; split; try tauto; try discriminate; intros [X _]; discriminate.
Qed.
Lemma usage_first xml : forall pre sc m seen ns,
  balanced (List.length pre) xml -> transparent pre -> sees seen m ->
  (forall e, elem_in e xml -> e_decls e = [] /\ resolve sc (e_prefix e) = Some (ns (e_prefix e))) ->
  usage xml (enter xml (pre ++ sc)) m = m ++ map (fun p => (p, ns p)) (first_uses seen xml).
Proof.
  induction xml as [|t xml IH]; intros pre sc m seen ns B T S E.
  - cbn. rewrite app_nil_r. reflexivity.
  - assert (E' : forall e, elem_in e xml -> e_decls e = [] /\ resolve sc (e_prefix e) = Some (ns (e_prefix e))).
    { intros e [H|H]; apply E; [left|right]; right; exact H. }
    assert (U : forall e, elem_in e [t] -> forall q, transparent q ->
      (record_usage t (q ++ sc) m = m /\ existsb (String.eqb (e_prefix e)) seen = true) \/
      (record_usage t (q ++ sc) m = m ++ [(e_prefix e, ns (e_prefix e))] /\ existsb (String.eqb (e_prefix e)) seen = false
       /\ sees (e_prefix e :: seen) (m ++ [(e_prefix e, ns (e_prefix e))]))).
    { intros e He q Hq. destruct (E e) as [_ R]; [destruct He as [[->|[]]|[->|[]]]; [left|right]; left; reflexivity|].
      assert (Q : record_usage t (q ++ sc) m = match map_get (e_prefix e) m with Some _ => m | None =>
        match resolve (q ++ sc) (e_prefix e) with Some ns => map_insert (e_prefix e) ns m | None => m end end)
        by (destruct He as [[->|[]]|[->|[]]]; reflexivity).
      rewrite Q, (resolve_transparent _ _ _ Hq), R. destruct (map_get (e_prefix e) m) eqn:G.
      - left. split; [reflexivity|]. destruct (existsb (String.eqb (e_prefix e)) seen) eqn:X; [reflexivity|].
        apply S in X. congruence.
      - right. split; [apply map_get_insert_new; exact G|]. split; [apply S; exact G|]. exact (sees_add _ _ _ _ S G). }
    cbn [usage]. destruct t as [e|e|a b|s|s|s| |]; cbn [enter leave balanced first_uses record_usage] in *.
    + destruct (E e) as [Z _]; [left; left; reflexivity|]. rewrite Z.
      assert (T' : transparent ([] :: pre)) by (constructor; [reflexivity|exact T]).
      change ([] :: pre ++ sc) with (([] :: pre) ++ sc).
      destruct (U e (or_introl (or_introl eq_refl)) ([] :: pre) T') as [(U1 & U2)|(U1 & U2 & U3)];
        rewrite U1, U2; rewrite (IH ([] :: pre) sc _ _ ns B T' ltac:(eassumption) E');
        [|cbn [map]; rewrite <- app_assoc]; reflexivity.
    + destruct (E e) as [Z _]; [right; left; reflexivity|]. rewrite Z.
      assert (T' : transparent ([] :: pre)) by (constructor; [reflexivity|exact T]).
      cbn [tl]. change ([] :: pre ++ sc) with (([] :: pre) ++ sc).
      destruct (U e (or_intror (or_introl eq_refl)) ([] :: pre) T') as [(U1 & U2)|(U1 & U2 & U3)];
        rewrite U1, U2; rewrite (IH pre sc _ _ ns B T ltac:(eassumption) E');
        [|cbn [map]; rewrite <- app_assoc]; reflexivity.
    + destruct pre as [|q pre]; [destruct B|]. inversion T; subst. cbn [app tl]. apply (IH pre sc m seen ns); assumption.
    + apply (IH pre sc m seen ns); assumption.
    + apply (IH pre sc m seen ns); assumption.
    + apply (IH pre sc m seen ns); assumption.
    + apply (IH pre sc m seen ns); assumption.
    + apply (IH pre sc m seen ns); assumption.
Qed.
Lemma first_uses_complete xml : forall seen e, elem_in e xml -> In (e_prefix e) seen \/ In (e_prefix e) (first_uses seen xml).
Proof.
  assert (X : forall p seen, existsb (String.eqb p) seen = true -> In p seen).
  { intros p seen H. apply existsb_exists in H. destruct H as (q & A & B). apply String.eqb_eq in B. subst; exact A. }
  assert (Y : forall (e e' : elem) seen xml, 
    (forall seen e, elem_in e xml -> In (e_prefix e) seen \/ In (e_prefix e) (first_uses seen xml)) ->
    (e = e' \/ elem_in e xml) ->
    In (e_prefix e) seen \/ In (e_prefix e) (if existsb (String.eqb (e_prefix e')) seen then first_uses seen xml
       else e_prefix e' :: first_uses (e_prefix e' :: seen) xml)).
  { intros e e' seen xml' IH [<-|H].
    - destruct (existsb (String.eqb (e_prefix e)) seen) eqn:D; [left; auto|right; left; reflexivity].
    - destruct (existsb (String.eqb (e_prefix e')) seen) eqn:D; [apply IH; exact H|].
      destruct (IH (e_prefix e' :: seen) e H) as [[Z|Z]|Z]; [right; left; exact Z|left; exact Z|right; right; exact Z]. }
  induction xml as [|t xml IH]; intros seen e H; [destruct H as [[]|[]]|].
  destruct t; cbn [first_uses].
  1,2: apply (Y e _ seen xml IH); destruct H as [[H|H]|[H|H]]; try discriminate;
    try (injection H as ->; left; reflexivity); right; [left|right]; exact H.
  all: apply IH; destruct H as [[H|H]|[H|H]]; try discriminate; [left|right]; exact H.
Qed.

(* ---- reading a filter ---- *)
Lemma kinds_apart k : known_kind k -> k_xpath k <> k_subtree k /\ k_name k <> k_subtree k /\ k_name k <> k_xpath k.
Proof. intros [-> | ->]; repeat split; discriminate. Qed.
Lemma drop_element e c r : drop_text (element e c ++ r) = element e c ++ r.
Proof. reflexivity. Qed.
Lemma skip_text_element e c r o ps : skip_text (at_events (element e c ++ r) o ps) = at_events (element e c ++ r) o ps.
Proof. reflexivity. Qed.
Lemma skip_text_end b a c r o ps : Forall white b ->
  skip_text (at_events (b ++ End a c :: r) o ps) = at_events (End a c :: r) o ps.
Proof. intros H. apply skip_text_white; [exact H|reflexivity]. Qed.
Lemma element_app e c r : element e c ++ r = Start e :: c ++ End (e_prefix e) (e_local e) :: r.
Proof. unfold element. cbn. rewrite <- app_assoc. reflexivity. Qed.
Lemma enter_stands ts x a b r sc : stands_for ts x -> enter (ts ++ End a b :: r) sc = sc.
Proof. intros H. destruct H; reflexivity. Qed.
Definition used_of (path : string) (all : scope) : scope :=
  filter (fun x => existsb (String.eqb (fst x)) (find_xpath_prefixes path)) all.
Lemma read_xpath_at k o e ts x r ps : known_kind k -> named o e (k_ns k) (k_xpath k) -> stands_for ts x ->
  read_spec k (at_events (element e ts ++ r) o ps)
  = Ok (XPath (used_of x (all_namespaces (e_decls e :: o))) (trim x)) (at_events r o ps).
Proof.
  intros K N S. destruct (kinds_apart _ K) as (K1 & K2 & K3). unfold read_spec. rewrite skip_text_element.
  rewrite element_app. rewrite (is_tag_other _ _ _ _ _ _ _ _ N (or_intror K1)), (is_tag_start _ _ _ _ _ _ N).
  unfold read_xpath_filter. rewrite skip_text_at. cbn [drop_text]. rewrite (is_tag_start _ _ _ _ _ _ N).
  rewrite (open_start _ _ _ _ _ _ N). cbn [bind]. unfold read_xpath_with_namespaces.
  rewrite (tag_string_at _ _ _ _ _ _ _ S). cbn [bind]. rewrite close_end. cbn [bind tl].
  unfold at_events at 1. cbn [scopes]. rewrite (enter_stands _ _ _ _ _ _ S). reflexivity.
Qed.
Lemma read_subtree_at k o e xml r ps : known_kind k -> named o e (k_ns k) (k_subtree k) ->
  balanced 0 xml -> no_end (k_subtree k) xml ->
  read_spec k (at_events (element e xml ++ r) o ps)
  = Ok (Subtree (usage xml (enter xml (e_decls e :: o)) []) xml) (at_events r o ps).
Proof.
  intros K N B E. destruct (kinds_apart _ K) as (K1 & K2 & K3). unfold read_spec. rewrite skip_text_element.
  rewrite element_app. rewrite (is_tag_start _ _ _ _ _ _ N).
  unfold read_subtree_filter. rewrite skip_text_at. cbn [drop_text]. rewrite (is_tag_start _ _ _ _ _ _ N).
  rewrite (open_start _ _ _ _ _ _ N). cbn [bind]. unfold copy_buffer_till_with_namespaces.
  unfold at_events. cbn [toks scopes parents]. rewrite enter_end. destruct N as [N1 N2]. rewrite N1.
  rewrite (copy_till_at (k_subtree k) xml [] (e_decls e :: o) [] [] B E). reflexivity.
Qed.
Lemma spec_read k o s : known_kind k -> spec_document o k s ->
  exists sp, forall r ps, read_spec k (at_events (s ++ r) o ps) = Ok sp (at_events r o ps).
Proof.
  intros K H. destruct H as [e ts x N S|e xml N B E].
  - eexists. intros r ps. exact (read_xpath_at k o e ts x r ps K N S).
  - eexists. intros r ps. exact (read_subtree_at k o e xml r ps K N B E).
Qed.
Lemma spec_head k o s : known_kind k -> spec_document o k s ->
  (exists e c, s = element e c) /\ (forall r ps ns, is_tag (at_events (s ++ r) o ps) ns (k_name k) = false).
Proof.
  intros K H. destruct (kinds_apart _ K) as (K1 & K2 & K3). destruct H as [e ts x N S|e xml N B E].
  - split; [eauto|]. intros r ps ns. rewrite element_app. apply (is_tag_other _ _ _ _ _ _ _ _ N). right. congruence.
  - split; [eauto|]. intros r ps ns. rewrite element_app. apply (is_tag_other _ _ _ _ _ _ _ _ N). right. congruence.
Qed.
Lemma read_filter_at k o e b0 n tn x b1 s sp b2 r ps : known_kind k ->
  named o e (k_ns k) (k_tag k) -> Forall white b0 -> Forall white b1 -> Forall white b2 ->
  named (e_decls e :: o) n (k_ns k) (k_name k) -> stands_for tn x -> spec_document (e_decls e :: o) k s ->
  (forall r ps, read_spec k (at_events (s ++ r) (e_decls e :: o) ps) = Ok sp (at_events r (e_decls e :: o) ps)) ->
  read_filter k (at_events (element e (b0 ++ element n tn ++ b1 ++ s ++ b2) ++ r) o ps) = Ok (Filter (trim x) sp) (at_events r o ps).
Proof.
  intros K N W0 W1 W2 Nn Sn D Hs. destruct (spec_head k _ s K D) as [(es & cs & ->) _].
  unfold read_filter. rewrite skip_text_element, element_app.
  rewrite (is_tag_start _ _ _ _ _ _ N), (open_start _ _ _ _ _ _ N). cbn [bind].
  rewrite <- !app_assoc.
  rewrite (skip_text_white b0 _ _ _ W0 (drop_element _ _ _)).
  rewrite (element_app n). rewrite (is_tag_start _ _ _ _ _ _ Nn). rewrite <- (element_app n).
  rewrite (read_name_at _ _ _ _ _ _ _ _ Nn Sn). cbn [bind].
  rewrite (skip_text_white b1 _ _ _ W1 (drop_element _ _ _)).
  rewrite Hs. cbn [bind]. rewrite (skip_text_end b2 _ _ _ _ _ W2), close_end. reflexivity.
Qed.
Lemma read_filter_late_at k o e b0 n tn x b1 s sp b2 r ps : known_kind k ->
  named o e (k_ns k) (k_tag k) -> Forall white b0 -> Forall white b1 -> Forall white b2 ->
  named (e_decls e :: o) n (k_late_name_ns k) (k_name k) -> stands_for tn x -> spec_document (e_decls e :: o) k s ->
  (forall r ps, read_spec k (at_events (s ++ r) (e_decls e :: o) ps) = Ok sp (at_events r (e_decls e :: o) ps)) ->
  read_filter k (at_events (element e (b0 ++ s ++ b1 ++ element n tn ++ b2) ++ r) o ps) = Ok (Filter (trim x) sp) (at_events r o ps).
Proof.
  intros K N W0 W1 W2 Nn Sn D Hs. destruct (spec_head k _ s K D) as [(es & cs & ->) Hn].
  unfold read_filter. rewrite skip_text_element, element_app.
  rewrite (is_tag_start _ _ _ _ _ _ N), (open_start _ _ _ _ _ _ N). cbn [bind].
  rewrite <- !app_assoc.
  rewrite (skip_text_white b0 _ _ _ W0 (drop_element _ _ _)). rewrite Hn, Hs. cbn [bind].
  rewrite (skip_text_white b1 _ _ _ W1 (drop_element _ _ _)).
  rewrite (read_name_at _ _ _ _ _ _ _ _ Nn Sn). cbn [bind].
  rewrite (skip_text_end b2 _ _ _ _ _ W2), close_end. reflexivity.
Qed.

(* ---- reading the children of filters ---- *)
Definition block (o : list scope) (k : kind) (doc : list tok) (f : filter_def) : Prop :=
  (forall r ps, read_filter k (at_events (doc ++ r) o ps) = Ok f (at_events r o ps)) /\
  exists e d, doc = Start e :: d /\ named o e (k_ns k) (k_tag k).
Inductive seq (o : list scope) : list tok -> list filter_def -> list filter_def -> Prop :=
| sq_nil : seq o [] [] []
| sq_white t w a b : white t -> seq o w a b -> seq o (t :: w) a b
| sq_unknown t w a b : proper t -> unknown o t -> seq o w a b -> seq o (events t ++ w) a b
| sq_stream d f w a b : block o stream_kind d f -> seq o w a b -> seq o (d ++ w) (f :: a) b
| sq_selection d f w a b : block o selection_kind d f -> seq o w a b -> seq o (d ++ w) a (f :: b).

Section TreeInd.
  Variable P : tree -> Prop.
  Variable H1 : forall e c, Forall P c -> P (Node e c).
  Variable H2 : forall e, P (EmptyNode e).
  Variable H3 : forall t, P (Leaf t).
  Fixpoint tree_ind' (t : tree) : P t :=
    match t with
    | Node e c => H1 e c ((fix go l : Forall P l := match l with [] => Forall_nil _ | x :: r => Forall_cons _ (tree_ind' x) (go r) end) c)
    | EmptyNode e => H2 e
    | Leaf t => H3 t
    end.
End TreeInd.
Lemma to_end_tree t : proper t -> forall a b d r, read_to_end a b d (events t ++ r) = read_to_end a b d r.
Proof.
  induction t as [e c IH|e|t] using tree_ind'; intros P a b d r.
  - cbn [events app read_to_end]. rewrite <- app_assoc. cbn [proper] in P.
    assert (L : forall d r, read_to_end a b d (flat_map events c ++ r) = read_to_end a b d r).
    { clear d r. induction IH as [|t c Ht _ IHc]; intros d r; [reflexivity|]. cbn [flat_map fold_right] in *.
      destruct P as [P1 P2]. rewrite <- app_assoc, (Ht P1). apply (IHc P2). }
    rewrite L. cbn [app read_to_end]. destruct (same_name a b (e_prefix e) (e_local e)); reflexivity.
  - reflexivity.
  - cbn in P. destruct t; try destruct P; reflexivity.
Qed.
Lemma same_refl a b : same_name a b a b = true.
Proof. unfold same_name. rewrite !eqb_refl'. reflexivity. Qed.
Lemma skip_tree t r o ps : proper t -> skip (at_events (events t ++ r) o ps) = Ok tt (at_events r o ps).
Proof.
  destruct t as [e c|e|t]; intros P.
  - cbn [events]. cbn [app]. rewrite <- app_assoc. unfold skip, at_events at 1. cbn [toks].
    assert (L : forall a b d r, read_to_end a b d (flat_map events c ++ r) = read_to_end a b d r).
    { cbn [proper] in P. induction c as [|t c IH]; intros a b d r'; [reflexivity|]. cbn [flat_map fold_right] in *.
      destruct P as [P1 P2]. rewrite <- app_assoc, (to_end_tree _ P1). apply (IH P2). }
    rewrite L. cbn [app read_to_end]. rewrite same_refl. reflexivity.
  - reflexivity.
  - cbn in P. destruct t; try destruct P; reflexivity.
Qed.
Lemma is_tag_unknown t r o ps ns key : proper t ->
  (match t with Node e _ | EmptyNode e => ~ named o e ns key | Leaf _ => True end) ->
  is_tag (at_events (events t ++ r) o ps) ns key = false.
Proof.
  intros P U. destruct t as [e c|e|t]; [| |destruct t; try destruct P; reflexivity];
  unfold is_tag, at_events; cbn [events app toks]; unfold is_name; cbn [scopes enter];
  destruct (String.eqb_spec (e_local e) key); try reflexivity;
  destruct (resolve (e_decls e :: o) (e_prefix e)) eqn:R; try reflexivity;
  destruct (String.eqb_spec s ns); try reflexivity; subst; destruct U; split; auto.
Qed.
Lemma drop_length ts : List.length (drop_text ts) <= List.length ts.
Proof. induction ts as [|[] ts IH]; cbn [drop_text List.length]; lia. Qed.
Lemma seq_loop o w a b : seq o w a b -> forall n start A B r ps, List.length w < n ->
  read_loop n start A B (at_events (drop_text (w ++ to_end start :: r)) o ps)
  = Ok (A ++ a, B ++ b) (at_events (to_end start :: r) o ps).
Proof.
  induction 1 as [|t w a b W _ IH|t w a b P U _ IH|d f w a b [R (e & d' & -> & N)] _ IH|d f w a b [R (e & d' & -> & N)] _ IH];
    intros n start A B r ps L.
  - destruct n as [|n]; [cbn in L; lia|]. cbn [app drop_text to_end read_loop toks at_events].
    unfold at_events at 1. cbn [toks]. rewrite same_refl, !app_nil_r. reflexivity.
  - destruct t; try destruct W; cbn [app drop_text List.length] in *; apply IH; lia.
  - destruct n as [|n]; [lia|].
    destruct (match t with Leaf (Text _) | Leaf Comment => true | _ => false end) eqn:X.
    + assert (Z : exists c, events t = [c] /\ white c) by (destruct t as [| |[]]; try discriminate; eexists; split; try reflexivity; exact I).
      destruct Z as (c & Z & W). rewrite Z in *. destruct c; try destruct W; cbn [app drop_text List.length] in *; apply IH; lia.
    + assert (Z : drop_text (events t ++ (w ++ to_end start :: r)) = events t ++ (w ++ to_end start :: r)).
      { destruct t as [| |[]]; try discriminate; reflexivity. }
      rewrite <- app_assoc, Z. cbn [read_loop].
      assert (Q : match toks (at_events (events t ++ w ++ to_end start :: r) o ps) with
                  | End a b :: _ => same_name (e_prefix start) (e_local start) a b | _ => false end = false).
      { destruct t as [| |[]]; try destruct P; reflexivity. }
      rewrite Q.
      rewrite (is_tag_unknown t _ o ps _ _ P) by (destruct t; cbn in U; tauto).
      rewrite (is_tag_unknown t _ o ps _ _ P) by (destruct t; cbn in U; tauto).
      rewrite (skip_tree _ _ _ _ P). cbn [bind]. rewrite skip_text_at. apply IH.
      rewrite app_length in L. assert (1 <= List.length (events t)) by (destruct t; cbn [events List.length]; lia). lia.
  - destruct n as [|n]; [lia|]. rewrite <- app_assoc. change (drop_text ((Start e :: d') ++ w ++ to_end start :: r)) with ((Start e :: d') ++ w ++ to_end start :: r).
    cbn [read_loop]. change (toks (at_events ((Start e :: d') ++ w ++ to_end start :: r) o ps)) with (Start e :: d' ++ w ++ to_end start :: r).
    cbv iota. replace (is_tag (at_events ((Start e :: d') ++ w ++ to_end start :: r) o ps) SUBSCRIBED_NOTIFICATIONS_NS "stream-filter") with true
      by (symmetry; exact (is_tag_start e _ o ps _ _ N)).
    rewrite R. cbn [bind]. rewrite skip_text_at, IH by (cbn [app List.length] in L; rewrite app_length in L; lia).
    rewrite <- app_assoc. reflexivity.
  - destruct n as [|n]; [lia|]. rewrite <- app_assoc. change (drop_text ((Start e :: d') ++ w ++ to_end start :: r)) with ((Start e :: d') ++ w ++ to_end start :: r).
    cbn [read_loop]. change (toks (at_events ((Start e :: d') ++ w ++ to_end start :: r) o ps)) with (Start e :: d' ++ w ++ to_end start :: r).
    cbv iota. replace (is_tag (at_events ((Start e :: d') ++ w ++ to_end start :: r) o ps) SUBSCRIBED_NOTIFICATIONS_NS "stream-filter") with false
      by (symmetry; apply (is_tag_other e _ o ps _ _ _ _ N); left; discriminate).
    replace (is_tag (at_events ((Start e :: d') ++ w ++ to_end start :: r) o ps) YANG_PUSH_NS "selection-filter") with true
      by (symmetry; exact (is_tag_start e _ o ps _ _ N)).
    rewrite R. cbn [bind]. rewrite skip_text_at, IH by (cbn [app List.length] in L; rewrite app_length in L; lia).
    rewrite <- app_assoc. reflexivity.
Qed.
Lemma read_filters_at e w a b r ps : filters_element e -> seq [e_decls e] w a b ->
  read_filters (at_events (element e w ++ r) [] ps) = Ok (filters_new a b) (at_events r [] ps).
Proof.
  intros N HS. unfold read_filters. rewrite skip_text_element, element_app.
  rewrite (is_tag_start _ _ _ _ _ _ N), (open_start _ _ _ _ _ _ N). cbn [bind]. rewrite skip_text_at.
  change (End (e_prefix e) (e_local e) :: r) with (to_end e :: r).
  assert (L : forall n, n = List.length (toks (at_events (drop_text (w ++ to_end e :: r)) [e_decls e] (true :: ps))) -> 
    read_loop (S n) e [] [] (at_events (drop_text (w ++ to_end e :: r)) [e_decls e] (true :: ps)) = Ok (a, b) (at_events (to_end e :: r) [e_decls e] (true :: ps))).
  { intros n ->. cbn [toks at_events].
    set (u := drop_text _).
    assert (G : exists w', seq [e_decls e] w' a b /\ u = drop_text (w' ++ to_end e :: r) /\ List.length w' < S (List.length u)).
    { unfold u. clear u. induction HS as [|t w a b W HS IH|t w a b P U HS IH|d f w a b B HS IH|d f w a b B HS IH].
      - exists []. repeat split; [constructor|cbn; lia].
      - destruct t; try destruct W; cbn [app drop_text]; exact IH.
      - destruct (match t with Leaf (Text _) | Leaf Comment => true | _ => false end) eqn:X.
        + destruct t as [| |[]]; try discriminate; exact IH.
        + exists (events t ++ w). repeat split; [constructor; assumption|].
          destruct t as [| |[]]; try discriminate; try destruct P; rewrite ?app_length; cbn [events app drop_text List.length]; rewrite ?app_length; cbn [List.length]; lia.
      - exists (d ++ w). repeat split; [constructor; assumption|]. destruct B as [_ (e' & d' & -> & _)].
        cbn [app drop_text List.length]. rewrite !app_length. lia.
      - exists (d ++ w). repeat split; [constructor; assumption|]. destruct B as [_ (e' & d' & -> & _)].
        cbn [app drop_text List.length]. rewrite !app_length. lia. }
    destruct G as (w' & G1 & G2 & G3). rewrite G2 at 2. rewrite (seq_loop _ _ _ _ G1) by exact G3. reflexivity. }
  rewrite (L _ eq_refl). cbn [bind]. unfold to_end. rewrite skip_text_at. cbn [drop_text]. rewrite close_end. reflexivity.
Qed.
