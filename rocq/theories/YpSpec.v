(* What a YANG module text is, for the properties of the dependency scanner.

   The concrete syntax of RFC 7950, sections 6.1 to 6.3: comments, white
   space, quoted strings with escapes and concatenation, statements ending in a
   semicolon or carrying a block of substatements.  A syntax tree records every
   layout choice, so quantifying over trees quantifies over all layouts.
   Nothing here refers to the scanner: only the types of texts and of the
   extracted dependencies come from the model file. *)
From Coq Require Import String.
From Verif Require Import Base YpModel.

(* ---- character classes (RFC 7950 section 14, all ASCII) ---- *)
Definition letter (c : N) : bool :=
  ((65 <=? c) && (c <=? 90)) || ((97 <=? c) && (c <=? 122)).
Definition digit (c : N) : bool := (48 <=? c) && (c <=? 57).
Definition id_start (c : N) : bool := letter c || (c =? 95).
Definition id_part (c : N) : bool :=
  letter c || digit c || (c =? 95) || (c =? 45) || (c =? 46).
Definition blank_char (c : N) : bool := (c =? 32) || (c =? 9) || (c =? 10) || (c =? 13).
(* A character of an unquoted argument: printable ASCII but the quotes, the
   braces, the semicolon.  The slash, which RFC 7950 allows when it starts no
   comment, is left out. *)
Definition word_char (c : N) : bool :=
  (33 <=? c) && (c <=? 126) &&
  negb ((c =? 34) || (c =? 39) || (c =? 59) || (c =? 123) || (c =? 125) || (c =? 47)).

(* ---- layout ---- *)
Inductive piece : Type :=
| PWs (c : N)            (* one blank character *)
| PLine (t : text)       (* a line comment with its line feed *)
| PBlock (t : text).     (* a block comment *)
Definition blank := list piece.
Definition ptext (p : piece) : text :=
  match p with
  | PWs c => [c]
  | PLine t => [47; 47] ++ t ++ [10]
  | PBlock t => [47; 42] ++ t ++ [42; 47]
  end.
Definition btext (b : blank) : text := flat_map ptext b.
Definition piece_ok (p : piece) : Prop :=
  match p with
  | PWs c => blank_char c = true
  | PLine t => ~ In 10 t
  | PBlock t => ~ exists a b, t = a ++ [42; 47] ++ b
  end.
Definition blank_ok (b : blank) : Prop := Forall piece_ok b.
(* The separator behind a keyword: a blank character, then any layout. *)
Record gap : Type := mkGap { g_char : N; g_more : blank }.
Definition gtext (g : gap) : text := g_char g :: btext (g_more g).
Definition gap_ok (g : gap) : Prop := blank_char (g_char g) = true /\ blank_ok (g_more g).

(* ---- strings ---- *)
Inductive dqc : Type := Plain (c : N) | Esc (c : N).
Definition dqc_text (x : dqc) : text :=
  match x with Plain c => [c] | Esc c => [92; c] end.
Definition dqc_val (x : dqc) : N :=
  match x with
  | Plain c => c
  | Esc c => if c =? 110 then 10 else if c =? 116 then 9 else c
  end.
Definition dqc_ok (x : dqc) : Prop :=
  match x with
  | Plain c => c <> 34 /\ c <> 92
  | Esc c => c = 110 \/ c = 116 \/ c = 34 \/ c = 92
  end.
Inductive lit : Type := LDouble (l : list dqc) | LSingle (t : text).
Definition lit_inner (l : lit) : text :=
  match l with LDouble l => flat_map dqc_text l | LSingle t => t end.
Definition lit_text (l : lit) : text :=
  match l with
  | LDouble _ => [34] ++ lit_inner l ++ [34]
  | LSingle _ => [39] ++ lit_inner l ++ [39]
  end.
Definition lit_val (l : lit) : text :=
  match l with LDouble l => map dqc_val l | LSingle t => t end.
Definition lit_ok (l : lit) : Prop :=
  match l with LDouble l => Forall dqc_ok l | LSingle t => ~ In 39 t end.

Definition join := (blank * blank * lit)%type.     (* layout, plus sign, layout, string *)
Inductive arg : Type := Word (w : text) | Quoted (l : lit) (more : list join).
Definition join_text (j : join) : text :=
  match j with (b1, b2, l) => btext b1 ++ [43] ++ btext b2 ++ lit_text l end.
Definition arg_text (a : arg) : text :=
  match a with
  | Word w => w
  | Quoted l more => lit_text l ++ flat_map join_text more
  end.
Definition arg_val (a : arg) : text :=
  match a with
  | Word w => w
  | Quoted l more => lit_val l ++ flat_map (fun j : join => lit_val (snd j)) more
  end.
Definition join_ok (j : join) : Prop :=
  match j with (b1, b2, l) => blank_ok b1 /\ blank_ok b2 /\ lit_ok l end.
Definition arg_ok (a : arg) : Prop :=
  match a with
  | Word w => w <> [] /\ forallb word_char w = true
  | Quoted l more => lit_ok l /\ Forall join_ok more
  end.

(* ---- statements ---- *)
Definition optarg := option (gap * arg).
Inductive stmt : Type :=
| Semi (kw : text) (a : optarg) (b : blank)
| Block (kw : text) (a : optarg) (b b0 : blank) (l : list (stmt * blank)).
Definition optarg_text (a : optarg) : text :=
  match a with None => [] | Some (g, a) => gtext g ++ arg_text a end.
Fixpoint stmt_text (s : stmt) : text :=
  match s with
  | Semi kw a b => kw ++ optarg_text a ++ btext b ++ [59]
  | Block kw a b b0 l =>
      kw ++ optarg_text a ++ btext b ++ [123] ++ btext b0 ++
      (fix go (l : list (stmt * blank)) : text :=
         match l with
         | [] => []
         | (x, bx) :: r => stmt_text x ++ btext bx ++ go r
         end) l ++ [125]
  end.
Definition stmts_text (l : list (stmt * blank)) : text :=
  flat_map (fun x => stmt_text (fst x) ++ btext (snd x)) l.
(* A keyword: an identifier, or an identifier with a prefix. *)
Definition kw_ok (kw : text) : Prop :=
  match kw with
  | [] => False
  | c :: r => id_start c = true /\ forallb (fun c => id_part c || (c =? 58)) r = true
  end.
Definition optarg_ok (a : optarg) : Prop :=
  match a with None => True | Some (g, a) => gap_ok g /\ arg_ok a end.
(* A property of keywords and arguments, at every level of a statement. *)
Fixpoint stmt_all (K : text -> Prop) (A : arg -> Prop) (s : stmt) : Prop :=
  match s with
  | Semi kw a b =>
      (kw_ok kw /\ K kw) /\
      match a with None => True | Some (g, x) => gap_ok g /\ arg_ok x /\ A x end /\ blank_ok b
  | Block kw a b b0 l =>
      (kw_ok kw /\ K kw) /\
      match a with None => True | Some (g, x) => gap_ok g /\ arg_ok x /\ A x end /\
      blank_ok b /\ blank_ok b0 /\
      (fix go (l : list (stmt * blank)) : Prop :=
         match l with
         | [] => True
         | (x, bx) :: r => stmt_all K A x /\ blank_ok bx /\ go r
         end) l
  end.
Definition stmts_all (K : text -> Prop) (A : arg -> Prop) (l : list (stmt * blank)) : Prop :=
  Forall (fun x => stmt_all K A (fst x) /\ blank_ok (snd x)) l.
Definition stmt_kw (s : stmt) : text :=
  match s with Semi kw _ _ | Block kw _ _ _ _ => kw end.

(* ---- linkage statements ---- *)
Inductive sub : Type :=
| SubPrefix (g : gap) (a : arg) (b : blank)
| SubRev (g : gap) (a : arg) (b : blank)
| SubOther (s : stmt).
Definition sub_text (s : sub) : text :=
  match s with
  | SubPrefix g a b => chars "prefix" ++ gtext g ++ arg_text a ++ btext b ++ [59]
  | SubRev g a b => chars "revision-date" ++ gtext g ++ arg_text a ++ btext b ++ [59]
  | SubOther s => stmt_text s
  end.
Definition subs_text (l : list (sub * blank)) : text :=
  flat_map (fun x => sub_text (fst x) ++ btext (snd x)) l.
(* The value of the prefix / revision-date substatement (RFC 7950 allows one of
   each; were there several, the last one). *)
Fixpoint last_prefix (l : list (sub * blank)) : option text :=
  match l with
  | [] => None
  | x :: r => match last_prefix r with
              | Some p => Some p
              | None => match fst x with SubPrefix _ a _ => Some (arg_val a) | _ => None end
              end
  end.
Fixpoint last_rev (l : list (sub * blank)) : option text :=
  match l with
  | [] => None
  | x :: r => match last_rev r with
              | Some p => Some p
              | None => match fst x with SubRev _ a _ => Some (arg_val a) | _ => None end
              end
  end.

Inductive link : Type :=
| LImport (g : gap) (a : arg) (b b0 : blank) (l : list (sub * blank))
| LIncludeSemi (g : gap) (a : arg) (b : blank)
| LIncludeBlock (g : gap) (a : arg) (b b0 : blank) (l : list (sub * blank)).
Definition link_text (x : link) : text :=
  match x with
  | LImport g a b b0 l =>
      chars "import" ++ gtext g ++ arg_text a ++ btext b ++ [123] ++ btext b0 ++ subs_text l ++ [125]
  | LIncludeSemi g a b => chars "include" ++ gtext g ++ arg_text a ++ btext b ++ [59]
  | LIncludeBlock g a b b0 l =>
      chars "include" ++ gtext g ++ arg_text a ++ btext b ++ [123] ++ btext b0 ++ subs_text l ++ [125]
  end.
Definition links_text (l : list (link * blank)) : text :=
  flat_map (fun x => link_text (fst x) ++ btext (snd x)) l.
(* A name or a date: an identifier (also one starting with a digit), or any
   quoted string. *)
Definition name_ok (a : arg) : Prop :=
  arg_ok a /\
  match a with
  | Word (c :: r) => (id_start c || digit c) = true /\
                     forallb (fun c => id_part c || (c =? 58)) r = true
  | Word [] => False
  | Quoted _ _ => True
  end.
(* No string ends in a backslash just before its closing quote. *)
Definition no_final_backslash (a : arg) : Prop :=
  match a with
  | Word _ => True
  | Quoted l more =>
      last (lit_inner l) 0 <> 92 /\
      Forall (fun j : join => last (lit_inner (snd j)) 0 <> 92) more
  end.
Definition sub_ok (in_import : bool) (s : sub) : Prop :=
  match s with
  | SubPrefix g a b => in_import = true /\ gap_ok g /\ name_ok a /\ blank_ok b
  | SubRev g a b => gap_ok g /\ name_ok a /\ blank_ok b
  | SubOther s =>
      stmt_all (fun _ => True) no_final_backslash s /\
      stmt_kw s <> chars "revision-date" /\
      (in_import = true -> stmt_kw s <> chars "prefix")
  end.
Definition subs_ok (in_import : bool) (l : list (sub * blank)) : Prop :=
  Forall (fun x => sub_ok in_import (fst x) /\ blank_ok (snd x)) l.
Definition link_ok (x : link) : Prop :=
  match x with
  | LImport g a b b0 l =>
      gap_ok g /\ name_ok a /\ blank_ok b /\ blank_ok b0 /\ subs_ok true l /\ last_prefix l <> None
  | LIncludeSemi g a b => gap_ok g /\ name_ok a /\ blank_ok b
  | LIncludeBlock g a b b0 l =>
      gap_ok g /\ name_ok a /\ blank_ok b /\ blank_ok b0 /\ subs_ok false l
  end.
Definition imports_of (l : list (link * blank)) : list import :=
  flat_map (fun x => match fst x with
                     | LImport _ a _ _ s =>
                         match last_prefix s with
                         | Some p => [mkImport (arg_val a) p (last_rev s)]
                         | None => []
                         end
                     | _ => []
                     end) l.
Definition includes_of (l : list (link * blank)) : list include :=
  flat_map (fun x => match fst x with
                     | LIncludeSemi _ a _ => [mkInclude (arg_val a) None]
                     | LIncludeBlock _ a _ _ s => [mkInclude (arg_val a) (last_rev s)]
                     | _ => []
                     end) l.

(* ---- modules ---- *)
(* The words the scanner reacts to. *)
Definition meta_kw (w : text) : Prop :=
  w = chars "organization" \/ w = chars "contact" \/
  w = chars "description" \/ w = chars "reference".
Definition reserved (w : text) : Prop :=
  w = chars "import" \/ w = chars "include" \/ meta_kw w.
(* An argument that cannot be mistaken for a keyword: quoted, an identifier
   that is none of those words, or a word that does not end in one of them. *)
Definition inert_arg (a : arg) : Prop :=
  match a with
  | Quoted _ _ => True
  | Word w =>
      (kw_ok w /\ ~ reserved w) \/ (forall u v, w = u ++ v -> ~ reserved v)
  end.
Definition inert (s : stmt) : Prop := stmt_all (fun kw => ~ reserved kw) inert_arg s.
Definition inerts (l : list (stmt * blank)) : Prop :=
  stmts_all (fun kw => ~ reserved kw) inert_arg l.
Definition optarg_inert (a : optarg) : Prop :=
  match a with None => True | Some (g, x) => gap_ok g /\ arg_ok x /\ inert_arg x end.

(* What follows the linkage statements: statements, the opening of a block, the
   end of the module, or one of the four meta statements followed by anything. *)
Inductive tail : Type :=
| TEnd (b : blank)
| TMeta (kw : text) (c : N) (rest : text)
| TStmt (s : stmt) (b : blank) (t : tail)
| TOpen (kw : text) (a : optarg) (b b0 : blank) (t : tail).
Fixpoint tail_text (t : tail) : text :=
  match t with
  | TEnd b => [125] ++ btext b
  | TMeta kw c rest => kw ++ [c] ++ rest
  | TStmt s b t => stmt_text s ++ btext b ++ tail_text t
  | TOpen kw a b b0 t => kw ++ optarg_text a ++ btext b ++ [123] ++ btext b0 ++ tail_text t
  end.
Fixpoint tail_ok (t : tail) : Prop :=
  match t with
  | TEnd b => blank_ok b
  | TMeta kw c _ => meta_kw kw /\ (blank_char c = true \/ c = 34 \/ c = 39)
  | TStmt s b t => inert s /\ blank_ok b /\ tail_ok t
  | TOpen kw a b b0 t =>
      kw_ok kw /\ ~ reserved kw /\ optarg_inert a /\ blank_ok b /\ blank_ok b0 /\ tail_ok t
  end.

(* A module or submodule: [lead], [module name {], header statements, linkage
   statements, the rest. *)
Record modl : Type := mkMod {
  m_lead : blank;
  m_kw : text; m_gap : gap; m_arg : arg; m_b : blank; m_b0 : blank;
  m_head : list (stmt * blank);
  m_links : list (link * blank);
  m_tail : tail }.
Definition opening_text (m : modl) : text :=
  btext (m_lead m) ++ m_kw m ++ gtext (m_gap m) ++ arg_text (m_arg m) ++ btext (m_b m) ++
  [123] ++ btext (m_b0 m) ++ stmts_text (m_head m) ++ links_text (m_links m).
Definition mod_text (m : modl) : text := opening_text m ++ tail_text (m_tail m).
Definition opening_ok (m : modl) : Prop :=
  blank_ok (m_lead m) /\ kw_ok (m_kw m) /\ ~ reserved (m_kw m) /\
  gap_ok (m_gap m) /\ arg_ok (m_arg m) /\ inert_arg (m_arg m) /\
  blank_ok (m_b m) /\ blank_ok (m_b0 m) /\ inerts (m_head m) /\
  Forall (fun x => link_ok (fst x) /\ blank_ok (snd x)) (m_links m).
Definition mod_ok (m : modl) : Prop := opening_ok m /\ tail_ok (m_tail m).

(* ---- termination and panics ---- *)
Definition ascii (t : text) : Prop := forall c, In c t -> c < 128.
