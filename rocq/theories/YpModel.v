(* Model of the YANG dependency scanner:
   crates/netconf-proto/src/yangparser.rs.

   A schema text is a list of Unicode code points.  The parser state (content,
   position) is the list of characters still to be read: every [position] the
   code reaches through [advance] is a character boundary, so a position is a
   suffix.  Three functions of the code work on bytes instead; their effect on
   characters, including the slice panics, is spelled out below. *)
From Coq Require Import String Ascii.
From Verif Require Import Base.
Open Scope N_scope.

Definition text := list N.

(* A Rust string literal as a list of code points. *)
Fixpoint chars (s : string) : text :=
  match s with
  | EmptyString => []
  | String a r => N_of_ascii a :: chars r
  end.

Fixpoint text_eqb (a b : text) : bool :=
  match a, b with
  | [], [] => true
  | x :: a', y :: b' => (x =? y) && text_eqb a' b'
  | _, _ => false
  end.

(* yangparser.rs:18-36 YangImport, YangInclude, YangDependencies *)
Record import : Type := mkImport {
  im_name : text; im_prefix : text; im_rev : option text }.
Record include : Type := mkInclude { in_name : text; in_rev : option text }.
Record deps : Type := mkDeps { d_imports : list import; d_includes : list include }.

(* The error strings of the parser, one per message (positions dropped). *)
Inductive yperr : Type :=
| ExpectedModuleName | ExpectedSubmoduleName | ExpectedPrefix | ExpectedRevision
| MissingPrefix | ExpectedSemiOrBrace | ExpectedChar (c : N).

Notation yres := (res yperr).
Notation "'let?' x ':=' e 'in' f" := (rbind e (fun x => f))
  (at level 200, x pattern, e at level 100, f at level 200).

Section Unicode.
(* char::is_whitespace, is_alphabetic and is_numeric outside the tables given
   below (U+0080 and above for white space, U+0100 and above for the two
   others) are left unspecified. *)
Variable u_white u_alpha u_num : N -> bool.

(* char::is_whitespace: U+0009..U+000D and U+0020 below U+0080 *)
Definition white (c : N) : bool :=
  if c <? 128 then (c =? 32) || ((9 <=? c) && (c <=? 13)) else u_white c.
(* char::is_alphabetic on Latin-1: A-Z a-z U+00AA U+00B5 U+00BA and
   U+00C0..U+00FF but the multiplication and division signs *)
Definition alpha (c : N) : bool :=
  if c <? 128 then ((65 <=? c) && (c <=? 90)) || ((97 <=? c) && (c <=? 122))
  else if c <? 256
       then (c =? 170) || (c =? 181) || (c =? 186)
            || ((192 <=? c) && negb (c =? 215) && negb (c =? 247))
       else u_alpha c.
(* char::is_numeric on Latin-1: 0-9, superscripts and fractions *)
Definition numeric (c : N) : bool :=
  if c <? 128 then (48 <=? c) && (c <=? 57)
  else if c <? 256
       then (c =? 178) || (c =? 179) || (c =? 185) || (c =? 188) || (c =? 189) || (c =? 190)
       else u_num c.
(* char::is_alphanumeric *)
Definition alnum (c : N) : bool := alpha c || numeric c.

(* str::as_bytes of one character *)
Definition utf8 (c : N) : list N :=
  if c <? 128 then [c]
  else if c <? 2048 then [192 + c / 64; 128 + c mod 64]
  else if c <? 65536 then [224 + c / 4096; 128 + (c / 64) mod 64; 128 + c mod 64]
  else [240 + c / 262144; 128 + (c / 4096) mod 64; 128 + (c / 64) mod 64; 128 + c mod 64].

(* yangparser.rs:342-368 skip_whitespace_and_comments.  The three loops of the
   code are the three modes.  [peek_chars(2)] (643-658) compares byte lengths
   and then steps two characters: with one character of more than one byte left
   the slice end lies beyond the text, which panics; with one ASCII character
   left it is None. *)
Inductive smode : Type := SpNormal | SpLine | SpBlock.
Fixpoint skip_ws_m (m : smode) (s : text) : yres text :=
  match s with
  | [] => Ok []
  | c :: r =>
      match m with
      | SpNormal =>
          if white c then skip_ws_m SpNormal r
          else match r with
               | [] => if c <? 128 then Ok s else Panic
               | d :: r' =>
                   if (c =? 47) && (d =? 47) then skip_ws_m SpLine r
                   else if (c =? 47) && (d =? 42) then skip_ws_m SpBlock r'
                   else Ok s
               end
      | SpLine => if c =? 10 then skip_ws_m SpNormal r else skip_ws_m SpLine r
      | SpBlock =>
          match r with
          | [] => if c <? 128 then Ok [] else Panic
          | d :: r' =>
              if (c =? 42) && (d =? 47) then skip_ws_m SpNormal r'
              else skip_ws_m SpBlock r
          end
      end
  end.
Definition skip_ws (s : text) : yres text := skip_ws_m SpNormal s.

(* yangparser.rs:418-443 peek_identifier: it walks over bytes, reading each as
   a Latin-1 character, and slices the text at the byte where it stops; inside
   a multi-byte character that slice panics. *)
Definition id_byte (b : N) : bool := alnum b || (b =? 95) || (b =? 45) || (b =? 46).
Fixpoint id_run (s : text) : yres text :=
  match s with
  | [] => Ok []
  | c :: r =>
      match utf8 c with
      | [] => Ok []
      | b :: bs =>
          if negb (id_byte b) then Ok []
          else if forallb id_byte bs
               then let? l := id_run r in Ok (c :: l)
               else Panic
      end
  end.
Definition peek_identifier (s : text) : yres (option text) :=
  match s with
  | [] => Ok None
  | c :: r =>
      match utf8 c with
      | [] => Ok None
      | b :: bs =>
          if alpha b || (b =? 95)
          then if forallb id_byte bs
               then let? l := id_run r in Ok (Some (c :: l))
               else Panic
          else Ok None
      end
  end.

(* yangparser.rs:370-389 match_keyword: [Some rest] when the keyword is there,
   with the position behind it. *)
Definition kw_delim (c : N) : bool :=
  white c || (c =? 123) || (c =? 59) || (c =? 34) || (c =? 39).
Definition match_keyword (kw : text) (s : text) : yres (option text) :=
  let? i := peek_identifier s in
  match i with
  | Some id =>
      if text_eqb id kw
      then let rest := skipn (List.length kw) s in
           match rest with
           | [] => Ok (Some [])
           | c :: _ => if kw_delim c then Ok (Some rest) else Ok None
           end
      else Ok None
  | None => Ok None
  end.

(* yangparser.rs:391-416 read_identifier *)
Definition id_first (c : N) : bool := alpha c || (c =? 95) || numeric c.
Definition id_char (c : N) : bool :=
  alnum c || (c =? 95) || (c =? 45) || (c =? 46) || (c =? 58).
Fixpoint span_id (s : text) : text * text :=
  match s with
  | [] => ([], [])
  | c :: r => if id_char c then let (a, b) := span_id r in (c :: a, b) else ([], s)
  end.
Definition read_identifier (s : text) : option text * text :=
  match s with
  | [] => (None, [])
  | c :: r => if id_first c then let (a, b) := span_id r in (Some (c :: a), b) else (None, s)
  end.

(* yangparser.rs:480-511 read_double_quoted_string, after the opening quote.
   An unterminated string leaves the position at the end of the text. *)
Definition unescape (e : N) : N :=
  if e =? 110 then 10 else if e =? 116 then 9 else e.
Fixpoint dq_body (s : text) : option text * text :=
  match s with
  | [] => (None, [])
  | c :: r =>
      if c =? 34 then (Some [], r)
      else if c =? 92
           then match r with
                | [] => (None, [])
                | e :: r' => let (v, rest) := dq_body r' in
                             (option_map (cons (unescape e)) v, rest)
                end
           else let (v, rest) := dq_body r in (option_map (cons c) v, rest)
  end.
(* yangparser.rs:513-532 read_single_quoted_string, after the opening quote *)
Fixpoint sq_body (s : text) : option text * text :=
  match s with
  | [] => (None, [])
  | c :: r =>
      if c =? 39 then (Some [], r)
      else let (v, rest) := sq_body r in (option_map (cons c) v, rest)
  end.

(* yangparser.rs:454-475: the concatenation loop of read_string_or_identifier.
   Every turn reads at least the [+]. *)
Fixpoint concat_loop (fuel : nat) (acc : text) (s : text) : yres (text * text) :=
  match fuel with
  | O => Diverge
  | S f =>
      let? s1 := skip_ws s in
      match s1 with
      | c :: r =>
          if c =? 43
          then let? s2 := skip_ws r in
               match s2 with
               | q :: r2 =>
                   if q =? 34
                   then let (v, rest) := dq_body r2 in
                        concat_loop f (match v with Some w => acc ++ w | None => acc end) rest
                   else if q =? 39
                   then let (v, rest) := sq_body r2 in
                        concat_loop f (match v with Some w => acc ++ w | None => acc end) rest
                   else Ok (acc, s2)
               | [] => Ok (acc, [])
               end
          else Ok (acc, s1)
      | [] => Ok (acc, [])
      end
  end.

(* yangparser.rs:445-478 read_string_or_identifier *)
Definition read_value (s : text) : yres (option text * text) :=
  let? s1 := skip_ws s in
  match s1 with
  | [] => Ok (None, [])
  | c :: r =>
      if (c =? 34) || (c =? 39)
      then let (v, rest) := if c =? 34 then dq_body r else sq_body r in
           match v with
           | None => Ok (None, rest)
           | Some w => let? x := concat_loop (S (List.length rest)) w rest in
                       Ok (Some (fst x), snd x)
           end
      else Ok (read_identifier s1)
  end.

(* yangparser.rs:535-564 skip_one_token; the brace and semicolon arms do what
   the last one does. *)
Definition skip_one_token (s : text) : text :=
  match s with
  | [] => []
  | c :: r =>
      if c =? 34 then snd (dq_body r)
      else if c =? 39 then snd (sq_body r)
      else if alpha c || (c =? 95) then snd (read_identifier s)
      else r
  end.

(* yangparser.rs:566-621 skip_statement, with skip_whitespace_and_comments
   inlined: the modes are "outside a string" (with the two comment loops) and
   "inside a string opened by q, previous character p".  The code looks at the
   previous byte; it equals 0x5C exactly when the previous character is a
   backslash. *)
Inductive stmode : Type := StOut | StLine | StBlock | StStr (q p : N).
Fixpoint skip_statement_m (m : stmode) (depth : nat) (s : text) : yres text :=
  match s with
  | [] => Ok []
  | c :: r =>
      match m with
      | StStr q p =>
          if (c =? q) && negb (p =? 92) then skip_statement_m StOut depth r
          else skip_statement_m (StStr q c) depth r
      | StLine =>
          if c =? 10 then skip_statement_m StOut depth r else skip_statement_m StLine depth r
      | StBlock =>
          match r with
          | [] => if c <? 128 then Ok [] else Panic
          | d :: r' =>
              if (c =? 42) && (d =? 47) then skip_statement_m StOut depth r'
              else skip_statement_m StBlock depth r
          end
      | StOut =>
          if white c then skip_statement_m StOut depth r
          else
            let here :=
              if (c =? 34) || (c =? 39) then skip_statement_m (StStr c c) depth r
              else if c =? 123 then skip_statement_m StOut (S depth) r
              else if c =? 125
                   then match depth with
                        | O => Ok s
                        | S O => Ok r
                        | S d => skip_statement_m StOut d r
                        end
              else if c =? 59
                   then match depth with O => Ok r | _ => skip_statement_m StOut depth r end
              else skip_statement_m StOut depth r in
            match r with
            | [] => if c <? 128 then here else Panic
            | d :: r' =>
                if (c =? 47) && (d =? 47) then skip_statement_m StLine depth r
                else if (c =? 47) && (d =? 42) then skip_statement_m StBlock depth r'
                else here
            end
      end
  end.
Definition skip_statement (s : text) : yres text := skip_statement_m StOut O s.

(* yangparser.rs:623-637 expect_char *)
Definition expect_char (c : N) (s : text) : yres text :=
  let? s1 := skip_ws s in
  match s1 with
  | d :: r => if d =? c then Ok r else Err (ExpectedChar c)
  | [] => Err (ExpectedChar c)
  end.

(* A "value ;" pair: skip_whitespace_and_comments, read_string_or_identifier,
   skip_whitespace_and_comments, expect_char(';'), as at yangparser.rs:261-268. *)
Definition value_semi (e : yperr) (s : text) : yres (text * text) :=
  let? s1 := skip_ws s in
  let? x := read_value s1 in
  match fst x with
  | None => Err e
  | Some v => let? s2 := skip_ws (snd x) in
              let? s3 := expect_char 59 s2 in
              Ok (v, s3)
  end.

(* [peek_char() == Some('}')] followed by [advance] *)
Definition closing (s : text) : option text :=
  match s with
  | c :: r => if c =? 125 then Some r else None
  | [] => None
  end.

(* yangparser.rs:254-281: the loop over the body of an import statement.  The
   loop has no end-of-text test. *)
Fixpoint import_body (fuel : nat) (prefix rev : option text) (s : text)
  : yres (option text * option text * text) :=
  match fuel with
  | O => Diverge
  | S f =>
      let? s1 := skip_ws s in
      match closing s1 with
      | Some r => Ok (prefix, rev, r)
      | None =>
          let? k := match_keyword (chars "prefix") s1 in
          match k with
          | Some s2 => let? x := value_semi ExpectedPrefix s2 in
                       import_body f (Some (fst x)) rev (snd x)
          | None =>
              let? k2 := match_keyword (chars "revision-date") s1 in
              match k2 with
              | Some s2 => let? x := value_semi ExpectedRevision s2 in
                           import_body f prefix (Some (fst x)) (snd x)
              | None => let? s2 := skip_statement s1 in
                        import_body f prefix rev s2
              end
          end
      end
  end.

(* yangparser.rs:240-291 parse_import *)
Definition parse_import (fuel : nat) (s : text) : yres (import * text) :=
  let? s1 := skip_ws s in
  let? x := read_value s1 in
  match fst x with
  | None => Err ExpectedModuleName
  | Some name =>
      let? s2 := skip_ws (snd x) in
      let? s3 := expect_char 123 s2 in
      let? y := import_body fuel None None s3 in
      match y with
      | (Some p, rev, rest) => Ok (mkImport name p rev, rest)
      | (None, _, _) => Err MissingPrefix
      end
  end.

(* yangparser.rs:311-332: the loop over the body of an include statement *)
Fixpoint include_body (fuel : nat) (rev : option text) (s : text)
  : yres (option text * text) :=
  match fuel with
  | O => Diverge
  | S f =>
      let? s1 := skip_ws s in
      match closing s1 with
      | Some r => Ok (rev, r)
      | None =>
          let? k := match_keyword (chars "revision-date") s1 in
          match k with
          | Some s2 => let? x := value_semi ExpectedRevision s2 in
                       include_body f (Some (fst x)) (snd x)
          | None => let? s2 := skip_statement s1 in
                    include_body f rev s2
          end
      end
  end.

(* yangparser.rs:293-340 parse_include *)
Definition parse_include (fuel : nat) (s : text) : yres (include * text) :=
  let? s1 := skip_ws s in
  let? x := read_value s1 in
  match fst x with
  | None => Err ExpectedSubmoduleName
  | Some name =>
      let? s2 := skip_ws (snd x) in
      match s2 with
      | c :: r =>
          if c =? 59 then Ok (mkInclude name None, r)
          else if c =? 123
               then let? y := include_body fuel None r in
                    Ok (mkInclude name (fst y), snd y)
               else Err ExpectedSemiOrBrace
      | [] => Err ExpectedSemiOrBrace
      end
  end.

(* yangparser.rs:223-231: the four keywords at which the scan stops *)
Fixpoint match_any (kws : list text) (s : text) : yres bool :=
  match kws with
  | [] => Ok false
  | k :: ks => let? m := match_keyword k s in
               match m with Some _ => Ok true | None => match_any ks s end
  end.
Definition meta_words : list text :=
  [chars "organization"; chars "contact"; chars "description"; chars "reference"].

(* yangparser.rs:207-238 parse.  [budget] bounds the loops over statement
   bodies, [fuel] the main loop. *)
Fixpoint parse_loop (fuel budget : nat) (acc : deps) (s : text) : yres deps :=
  match fuel with
  | O => Diverge
  | S f =>
      match s with
      | [] => Ok acc
      | _ =>
          let? s1 := skip_ws s in
          match s1 with
          | [] => Ok acc
          | _ =>
              let? k := match_keyword (chars "import") s1 in
              match k with
              | Some s2 =>
                  let? x := parse_import budget s2 in
                  parse_loop f budget
                    (mkDeps (d_imports acc ++ [fst x]) (d_includes acc)) (snd x)
              | None =>
                  let? k2 := match_keyword (chars "include") s1 in
                  match k2 with
                  | Some s2 =>
                      let? x := parse_include budget s2 in
                      parse_loop f budget
                        (mkDeps (d_imports acc) (d_includes acc ++ [fst x])) (snd x)
                  | None =>
                      let? stop := match_any meta_words s1 in
                      if stop then Ok acc
                      else parse_loop f budget acc (skip_one_token s1)
                  end
              end
          end
      end
  end.

(* yangparser.rs:69-73 extract_yang_dependencies, every loop cut after [n]
   turns.  [Diverge] for every [n] means that the call does not return. *)
Definition extract_upto (n : nat) (t : text) : yres deps :=
  parse_loop n n (mkDeps [] []) t.
(* One more turn than there are characters decides the matter: more turns
   never change the outcome (theorem C126_enough_turns). *)
Definition extract (t : text) : yres deps := extract_upto (S (List.length t)) t.
End Unicode.
