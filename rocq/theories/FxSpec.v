(* What the properties of YANG-Push filters in XML say, stated apart from the parser. *)
From Coq Require Import List Bool Arith String Ascii.
From Verif Require Import FxModel.
Import ListNotations.
Local Open Scope string_scope.
Local Open Scope list_scope.

(* ---- text ---- *)
(* what a run of character data stands for, by XML 1.0 *)
Inductive stands_for : list tok -> string -> Prop :=
| sf_nil : stands_for [] ""
| sf_text s r x : stands_for r x -> stands_for (Text s :: r) (s ++ x)%string
| sf_cdata s r x : stands_for r x -> stands_for (CData s :: r) (s ++ x)%string
| sf_comment r x : stands_for r x -> stands_for (Comment :: r) x
| sf_pi r x : stands_for r x -> stands_for (Other :: r) x
| sf_ref n c r x : In (n, c) [("lt", "<"); ("gt", ">"); ("amp", "&"); ("apos", "'"); ("quot", """")]
    -> stands_for r x -> stands_for (Ref n :: r) (c ++ x)%string.
(* the character a decimal reference names, of two digits *)
Definition digits2 (a b : nat) : string := String (ascii_of_nat (48 + a)) (String (ascii_of_nat (48 + b)) "").
Definition char_ref (a b : nat) : tok := Ref (String "#" (digits2 a b)).
Definition named_char (a b : nat) : string := String (ascii_of_nat (10 * a + b)) "".

(* ---- strings ---- *)
Definition is_blank (c : ascii) : Prop := In (nat_of_ascii c) [9; 10; 11; 12; 13; 32].
Definition no_outer_blanks (s : string) : Prop :=
  (forall c r, s = String c r -> ~ is_blank c) /\ (forall c r, s = (r ++ String c "")%string -> ~ is_blank c).

(* ---- XPath expressions as their lexical parts ---- *)
Definition letter (c : ascii) : Prop :=
  (65 <= nat_of_ascii c <= 90 \/ 97 <= nat_of_ascii c <= 122 \/ c = "_"%char)%nat.
Definition in_name (c : ascii) : Prop :=
  letter c \/ (48 <= nat_of_ascii c <= 57)%nat \/ c = "-"%char \/ c = "."%char.
Fixpoint all_chars (P : ascii -> Prop) (s : string) : Prop :=
  match s with EmptyString => True | String c r => P c /\ all_chars P r end.
Definition ascii_name (s : string) : Prop :=
  match s with EmptyString => False | String c r => letter c /\ all_chars in_name r end.
Inductive lexeme : Type :=
| LName (n : string)               (* foo *)
| LQName (p n : string)            (* p:foo *)
| LAny (p : string)                (* p:* *)
| LAxis (n : string)               (* child:: *)
| LString1 (s : string) | LString2 (s : string)    (* 'text', "text" *)
| LSymbol (c : ascii).             (* operators, brackets, digits, blanks *)
Definition render1 (l : lexeme) : string :=
  (match l with
   | LName n => n | LQName p n => p ++ ":" ++ n | LAny p => p ++ ":*" | LAxis n => n ++ "::"
   | LString1 s => "'" ++ s ++ "'" | LString2 s => """" ++ s ++ """" | LSymbol c => String c ""
   end)%string.
Fixpoint render (ls : list lexeme) : string := match ls with [] => "" | l :: r => (render1 l ++ render r)%string end.
Definition prefix_of (l : lexeme) : list string := match l with LQName p _ | LAny p => [p] | _ => [] end.
Definition prefixes (ls : list lexeme) : list string := flat_map prefix_of ls.
Definition well_formed1 (l : lexeme) : Prop :=
  match l with
  | LName n | LAxis n => ascii_name n
  | LQName p n => ascii_name p /\ ascii_name n
  | LAny p => ascii_name p
  | LString1 s => all_chars (fun c => c <> "'"%char) s
  | LString2 s => all_chars (fun c => c <> """"%char) s
  | LSymbol c => ~ letter c /\ c <> "'"%char /\ c <> """"%char
  end.
(* a name ends where it ends: what follows is no part of it *)
Definition ends_in_name (l : lexeme) : bool := match l with LName _ | LQName _ _ => true | _ => false end.
Definition separates (s : string) : Prop :=
  match s with EmptyString => True | String c _ => ~ in_name c /\ c <> ":"%char end.
Fixpoint well_formed (ls : list lexeme) : Prop :=
  match ls with
  | [] => True
  | l :: r => well_formed1 l /\ (ends_in_name l = true -> separates (render r)) /\ well_formed r
  end.

(* ---- filters that survive ---- *)
Definition apart (l : list (string * string)) : Prop :=
  NoDup (map fst l) /\ NoDup (map snd l) /\ forall p n, In (p, n) l -> p <> "" /\ n <> "".
Fixpoint balanced (depth : nat) (ts : list tok) : Prop :=
  match ts with
  | [] => depth = 0
  | Start _ :: r => balanced (S depth) r
  | End _ _ :: r => match depth with 0 => False | S d => balanced d r end
  | _ :: r => balanced depth r
  end.
(* the prefixes of the elements, each where it is first used *)
Fixpoint first_uses (seen : list string) (ts : list tok) : list string :=
  match ts with
  | [] => []
  | Start e :: r | Empty e :: r =>
    if existsb (String.eqb (e_prefix e)) seen then first_uses seen r
    else e_prefix e :: first_uses (e_prefix e :: seen) r
  | _ :: r => first_uses seen r
  end.
Definition self_contained (l : list (string * string)) (xml : list tok) : Prop :=
  balanced 0 xml /\ (forall e, In (Start e) xml \/ In (Empty e) xml -> e_decls e = []) /\
  (forall p n, In (End p n) xml -> n <> "datastore-subtree-filter" /\ n <> "stream-subtree-filter") /\
  first_uses [] xml = map fst l.
Definition faithful (s : spec) : Prop :=
  match s with
  | XPath l path => apart l /\ no_outer_blanks path /\
      exists ls, well_formed ls /\ render ls = path /\ forall p, In p (map fst l) -> In p (prefixes ls)
  | Subtree l xml => apart l /\ self_contained l xml
  end.
Definition faithful_filter (f : filter_def) : Prop := no_outer_blanks (f_name f) /\ faithful (f_spec f).
Definition faithful_filters (x : filters) : Prop :=
  NoDup (map f_name (stream_filters x)) /\ NoDup (map f_name (selection_filters x)) /\
  Forall faithful_filter (stream_filters x) /\ Forall faithful_filter (selection_filters x).
(* what is read back is what was written *)
Definition round_trips (x : filters) : Prop :=
  exists w p, write_filters x writer_new = Some w /\ read_filters (parser_new (out w)) = Ok x p /\ toks p = [].

(* ---- documents ---- *)
(* a parser in front of some events, with outer declarations *)
Definition at_events (ts : list tok) (outer : list (list (string * string))) (ps : list bool) : parser :=
  Parser ts (enter ts outer) ps.
Definition white (t : tok) : Prop := match t with Text _ | Comment => True | _ => False end.
(* an element of this namespace and name, with its content *)
Definition element (e : elem) (content : list tok) : list tok := Start e :: content ++ [End (e_prefix e) (e_local e)].
Definition named (outer : list (list (string * string))) (e : elem) (ns name : string) : Prop :=
  e_local e = name /\ resolve (e_decls e :: outer) (e_prefix e) = Some ns.
(* an element with everything in it *)
Inductive tree : Type := Node (e : elem) (content : list tree) | EmptyNode (e : elem) | Leaf (t : tok).
Definition is_leaf (t : tok) : Prop := match t with Start _ | Empty _ | End _ _ => False | _ => True end.
Fixpoint proper (t : tree) : Prop :=
  match t with
  | Node _ c => fold_right (fun t P => proper t /\ P) True c
  | EmptyNode _ => True
  | Leaf t => is_leaf t
  end.
Fixpoint events (t : tree) : list tok :=
  match t with
  | Node e c => Start e :: flat_map events c ++ [End (e_prefix e) (e_local e)]
  | EmptyNode e => [Empty e]
  | Leaf t => [t]
  end.
Definition ends_with_end (ts : list tok) : Prop := exists r a b, ts = r ++ [End a b].
(* a filter's document: its name and what it selects by, in this order, with white
   space and comments between *)
Inductive spec_document (o : list (list (string * string))) (k : kind) : list tok -> Prop :=
| sd_xpath e ts x : named o e (k_ns k) (k_xpath k) -> stands_for ts x -> spec_document o k (element e ts)
| sd_subtree e xml : named o e (k_ns k) (k_subtree k) -> balanced 0 xml ->
    (forall p n, In (End p n) xml -> n <> k_subtree k) -> spec_document o k (element e xml).
Inductive name_document (o : list (list (string * string))) (k : kind) : list tok -> Prop :=
| nd e ts x : named o e (k_ns k) (k_name k) -> stands_for ts x -> name_document o k (element e ts).
Inductive filter_document (o : list (list (string * string))) (k : kind) : list tok -> Prop :=
| fd e b0 n b1 s b2 : named o e (k_ns k) (k_tag k) -> Forall white b0 -> Forall white b1 -> Forall white b2 ->
    name_document (e_decls e :: o) k n -> spec_document (e_decls e :: o) k s ->
    filter_document o k (element e (b0 ++ n ++ b1 ++ s ++ b2)).
(* not a filter *)
Definition unknown (o : list (list (string * string))) (t : tree) : Prop :=
  match t with
  | Node e _ | EmptyNode e => ~ named o e SUBSCRIBED_NOTIFICATIONS_NS "stream-filter" /\ ~ named o e YANG_PUSH_NS "selection-filter"
  | Leaf _ => True
  end.
(* the second is the first without what is not a filter *)
Inductive extends (o : list (list (string * string))) : list tok -> list tok -> Prop :=
| ex_nil : extends o [] []
| ex_white t a b : white t -> extends o a b -> extends o (t :: a) (t :: b)
| ex_unknown t a b : proper t -> unknown o t -> extends o a b -> extends o (events t ++ a) b
| ex_stream d a b : filter_document o stream_kind d -> extends o a b -> extends o (d ++ a) (d ++ b)
| ex_selection d a b : filter_document o selection_kind d -> extends o a b -> extends o (d ++ a) (d ++ b).
Definition filters_element (e : elem) : Prop := named [] e SUBSCRIBED_NOTIFICATIONS_NS "filters".
Definition known_kind (k : kind) : Prop := k = stream_kind \/ k = selection_kind.
(* a binding is in force when no inner declaration of the prefix hides it *)
Inductive in_force : list (list (string * string)) -> string -> string -> Prop :=
| if_here d o p n : In (p, n) d -> n <> "" -> in_force (d :: o) p n
| if_outer d o p n : ~ In p (map fst d) -> in_force o p n -> in_force (d :: o) p n.
(* no tag declares a prefix twice *)
Definition declared_once (o : list (list (string * string))) : Prop := Forall (fun d => NoDup (map fst d)) o.
