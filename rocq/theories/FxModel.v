(* Reusable filters of YANG-Push and subscribed notifications as XML:
   crates/netconf-proto/src/yang_push/filters.rs, with the XML writer and parser
   of crates/netconf-proto/src/xml_utils.rs.

   A document is the sequence of events quick-xml reads or writes.  Not modelled:
   attributes other than xmlns, the XML declaration, encodings, and the reader's
   own errors (an end tag that does not match its start tag); a document may stop
   anywhere.  Strings are octets.  The prefixes
   xml and xmlns are not special here.  A subtree filter's text is its events. *)
From Coq Require Import List Bool Arith String Ascii.
Import ListNotations.
Local Open Scope string_scope.
Local Open Scope list_scope.

(* crates/netconf-proto/src/lib.rs line 37, yang_push/mod.rs lines 44-47 *)
Definition NETCONF_NS : string := "urn:ietf:params:xml:ns:netconf:base:1.0".
Definition YANG_PUSH_NS : string := "urn:ietf:params:xml:ns:yang:ietf-yang-push".
Definition SUBSCRIBED_NOTIFICATIONS_NS : string := "urn:ietf:params:xml:ns:yang:ietf-subscribed-notifications".

(* an element's tag: prefix (empty: none), local name, xmlns declarations as
   prefix and namespace *)
Record elem : Type := Elem { e_prefix : string; e_local : string; e_decls : list (string * string) }.
Inductive tok : Type :=
| Start (e : elem) | Empty (e : elem) | End (prefix local : string)
| Text (s : string) | CData (s : string) | Ref (s : string) | Comment | Other.

(* IndexMap::insert: an entry keeps its place *)
Fixpoint map_insert {A} (k : string) (v : A) (m : list (string * A)) : list (string * A) :=
  match m with
  | [] => [(k, v)]
  | (k', v') :: r => if String.eqb k' k then (k', v) :: r else (k', v') :: map_insert k v r
  end.
Definition map_get {A} (k : string) (m : list (string * A)) : option A :=
  option_map snd (find (fun p => String.eqb (fst p) k) m).

(* ---- the writer, xml_utils.rs lines 63-205 ---- *)
Record writer : Type := Writer {
  out : list tok;
  bindings : list (list (string * string));   (* namespace, prefix; the newest first *)
  applied : bool }.
(* lines 72-83 *)
Definition writer_new : writer := Writer [] [[(NETCONF_NS, "")]] false.
(* lines 109-114 *)
Fixpoint find_prefix (bs : list (list (string * string))) (ns : string) : option string :=
  match bs with
  | [] => None
  | b :: r => match map_get ns b with Some p => Some p | None => find_prefix r ns end
  end.
Definition get_namespace_prefix (w : writer) (ns : string) : option string := find_prefix (bindings w) ns.
(* lines 120-142 and 174-190 *)
Definition create_ns_element (w : writer) (ns name : string) : option (elem * writer) :=
  match get_namespace_prefix w ns with
  | None => None
  | Some p =>
    let decls := if applied w then [] else
                 match bindings w with b :: _ => map (fun x => (snd x, fst x)) b | [] => [] end in
    Some (Elem p name decls, Writer (out w) (bindings w) true)
  end.
(* lines 192-204 *)
Fixpoint has_duplicates (l : list string) : bool :=
  match l with [] => false | x :: r => existsb (String.eqb x) r || has_duplicates r end.
(* lines 144-157 *)
Definition push_namespace_binding (w : writer) (b : list (string * string)) : option writer :=
  if has_duplicates (map snd b) then None else Some (Writer (out w) (b :: bindings w) false).
(* lines 159-161 *)
Definition pop_namespace_binding (w : writer) : writer := Writer (out w) (tl (bindings w)) (applied w).
Definition write (w : writer) (ts : list tok) : writer := Writer (out w ++ ts) (bindings w) (applied w).
Definition to_end (e : elem) : tok := End (e_prefix e) (e_local e).
(* BytesText::new escapes five characters; they are read back as references *)
Definition special (c : ascii) : option string :=
  if Ascii.eqb c "<" then Some "lt" else if Ascii.eqb c ">" then Some "gt" else
  if Ascii.eqb c "&" then Some "amp" else if Ascii.eqb c "'" then Some "apos" else
  if Ascii.eqb c """" then Some "quot" else None.
Fixpoint escaped (s : string) : list tok :=
  match s with
  | EmptyString => []
  | String c r =>
    match special c with
    | Some n => Ref n :: escaped r
    | None => match escaped r with
              | Text t :: ts => Text (String c t) :: ts
              | ts => Text (String c "") :: ts
              end
    end
  end.

(* ---- the parser, xml_utils.rs lines 333-570 ---- *)
(* the events from the current one on (none: Eof, which is read again and again);
   the declarations in effect at the current one, innermost first; for each opened
   element whether it has an end tag *)
Record parser : Type := Parser { toks : list tok; scopes : list (list (string * string)); parents : list bool }.
Inductive err : Type := WrongToken | EofError | SkipError | ReaderError.
Inductive res (A : Type) : Type := Ok (a : A) (p : parser) | Err (e : err) | Hang.
Arguments Ok {A}. Arguments Err {A}. Arguments Hang {A}.
Definition bind {A B} (r : res A) (f : A -> parser -> res B) : res B :=
  match r with Ok a p => f a p | Err e => Err e | Hang => Hang end.
(* quick-xml: a start tag opens a scope; the scope of an end tag or an empty
   element is left with the next event *)
Definition enter (ts : list tok) (sc : list (list (string * string))) : list (list (string * string)) :=
  match ts with Start e :: _ | Empty e :: _ => e_decls e :: sc | _ => sc end.
Definition leave (t : tok) (sc : list (list (string * string))) : list (list (string * string)) :=
  match t with End _ _ | Empty _ => tl sc | _ => sc end.
(* lines 341-354 *)
Definition parser_new (ts : list tok) : parser := Parser ts (enter ts []) [].
(* lines 356-361 *)
Definition next_event (p : parser) : parser :=
  match toks p with [] => p | t :: r => Parser r (enter r (leave t (scopes p))) (parents p) end.
(* NamespaceResolver::resolve_element: xmlns="" takes the default away *)
Fixpoint resolve (sc : list (list (string * string))) (prefix : string) : option string :=
  match sc with
  | [] => None
  | d :: r => match map_get prefix d with
              | Some ns => if String.eqb ns "" then None else Some ns
              | None => resolve r prefix
              end
  end.
(* lines 396-412 *)
Definition is_name (p : parser) (ns key prefix local : string) : bool :=
  String.eqb local key && match resolve (scopes p) prefix with Some n => String.eqb n ns | None => false end.
Definition is_tag (p : parser) (ns key : string) : bool :=
  match toks p with
  | Start e :: _ | Empty e :: _ => is_name p ns key (e_prefix e) (e_local e)
  | End a b :: _ => is_name p ns key a b
  | _ => false
  end.
(* Reader::read_to_end: counts the elements of the same name *)
Definition same_name (a b c d : string) : bool := String.eqb a c && String.eqb b d.
Fixpoint read_to_end (a b : string) (depth : nat) (ts : list tok) : option (list tok) :=
  match ts with
  | [] => None
  | Start e :: r => read_to_end a b (if same_name a b (e_prefix e) (e_local e) then S depth else depth) r
  | End c d :: r => if same_name a b c d then match depth with 0 => Some r | S n => read_to_end a b n r end
                    else read_to_end a b depth r
  | _ :: r => read_to_end a b depth r
  end.
(* lines 371-386 *)
Definition skip (p : parser) : res unit :=
  match toks p with
  | Start e :: r =>
    match read_to_end (e_prefix e) (e_local e) 0 r with
    | Some ts => Ok tt (Parser ts (enter ts (tl (scopes p))) (parents p))
    | None => Err ReaderError
    end
  | End _ _ :: _ => Err SkipError
  | [] => Err EofError
  | _ => Ok tt (next_event p)
  end.
(* lines 388-393: a text or a comment opens and leaves no scope *)
Fixpoint drop_text (ts : list tok) : list tok :=
  match ts with Text _ :: r | Comment :: r => drop_text r | _ => ts end.
Definition skip_text (p : parser) : parser :=
  match toks p with
  | Text _ :: _ | Comment :: _ => Parser (drop_text (toks p)) (enter (drop_text (toks p)) (scopes p)) (parents p)
  | _ => p
  end.
(* lines 416-443 *)
Definition open (p : parser) (ns key : string) : res elem :=
  match toks p with
  | Empty e :: _ => if is_tag p ns key then Ok e (Parser (toks p) (scopes p) (false :: parents p)) else Err WrongToken
  | Start e :: _ => if is_tag p ns key then
      let q := next_event p in Ok e (Parser (toks q) (scopes q) (true :: parents q)) else Err WrongToken
  | _ => Err WrongToken
  end.
(* lines 531-534 *)
Definition parent_has_child (p : parser) : bool := match parents p with false :: _ => false | _ => true end.
(* lines 485-496 *)
Definition dereference (s : string) : string :=
  if String.eqb s "quot" then """" else if String.eqb s "apos" then "'" else if String.eqb s "amp" then "&" else
  if String.eqb s "lt" then "<" else if String.eqb s "gt" then ">" else s.
(* lines 467-513: at Eof the next event is Eof *)
Inductive read : Type := RText (s : string) (rest : list tok) | RWrong | RForever.
Fixpoint read_string (ts : list tok) (acc : string) : read :=
  match ts with
  | [] => RForever
  | CData s :: r | Text s :: r => read_string r (acc ++ s)%string
  | Ref s :: r => read_string r (acc ++ dereference s)%string
  | End _ _ :: _ => RText acc ts
  | Start _ :: _ | Empty _ :: _ => if String.eqb acc "" then RWrong else RText acc ts
  | Comment :: r | Other :: r => read_string r acc
  end.
Definition passes (ts : list tok) : bool := match ts with (Start _ | Empty _ | End _ _) :: _ => false | [] => false | _ => true end.
Definition tag_string (p : parser) : res string :=
  if parent_has_child p then
    match read_string (toks p) "" with
    | RText s ts => Ok s (Parser ts (if passes (toks p) then enter ts (scopes p) else scopes p) (parents p))
    | RWrong => Err WrongToken
    | RForever => Hang
    end
  else Ok "" p.
(* lines 536-556; each round reads an event, or fails *)
Fixpoint close_loop (fuel : nat) (p : parser) : res unit :=
  match fuel with
  | 0 => Hang
  | S n =>
    match toks p with
    | End _ _ :: _ => let q := next_event p in Ok tt (Parser (toks q) (scopes q) (tl (parents q)))
    | _ => bind (skip p) (fun _ q => close_loop n q)
    end
  end.
Definition close (p : parser) : res unit :=
  if parent_has_child p then close_loop (S (List.length (toks p))) p
  else let q := next_event p in Ok tt (Parser (toks q) (scopes q) (tl (parents q))).

(* find_xpath_prefixes, lines 802-850: every octet of a character that is not
   ASCII is passed over, as the character is *)
Definition between (lo hi : nat) (c : ascii) : bool := Nat.leb lo (nat_of_ascii c) && Nat.leb (nat_of_ascii c) hi.
Definition name_start (c : ascii) : bool := between 65 90 c || between 97 122 c || Ascii.eqb c "_".
Definition name_char (c : ascii) : bool := name_start c || between 48 57 c || Ascii.eqb c "-" || Ascii.eqb c ".".
Inductive scanning : Type := Plain | Single | Double | Name (s : string).
Definition plain (c : ascii) : scanning :=
  if Ascii.eqb c "'" then Single else if Ascii.eqb c """" then Double else
  if name_start c then Name (String c "") else Plain.
Fixpoint xpath_prefixes (st : scanning) (s : string) : list string :=
  match s with
  | EmptyString => []
  | String c r =>
    match st with
    | Single => xpath_prefixes (if Ascii.eqb c "'" then Plain else Single) r
    | Double => xpath_prefixes (if Ascii.eqb c """" then Plain else Double) r
    | Plain => xpath_prefixes (plain c) r
    | Name n =>
      if name_char c then xpath_prefixes (Name (n ++ String c "")%string) r
      else if Ascii.eqb c ":" then
        match r with
        | String c' _ => if Ascii.eqb c' ":" then xpath_prefixes Plain r else n :: xpath_prefixes Plain r
        | EmptyString => [n]
        end
      else xpath_prefixes (plain c) r
    end
  end.
Definition find_xpath_prefixes (s : string) : list string := xpath_prefixes Plain s.

(* lines 740-759; the resolver's bindings, outermost first *)
Definition all_namespaces (sc : list (list (string * string))) : list (string * string) :=
  filter (fun x => negb (String.eqb (snd x) ""))
         (fold_left (fun m d => fold_left (fun m x => map_insert (fst x) (snd x) m) d m) (rev sc) []).
Definition read_xpath_with_namespaces (p : parser) : res (string * list (string * string)) :=
  let all := all_namespaces (scopes p) in
  bind (tag_string p) (fun path q =>
  Ok (path, filter (fun x => existsb (String.eqb (fst x)) (find_xpath_prefixes path)) all) q).
(* lines 636-665 and 761-799: to an end tag of this local name *)
Definition record_usage (t : tok) (sc : list (list (string * string))) (m : list (string * string)) : list (string * string) :=
  match t with
  | Start e | Empty e =>
    match map_get (e_prefix e) m with
    | Some _ => m
    | None => match resolve sc (e_prefix e) with Some ns => map_insert (e_prefix e) ns m | None => m end
    end
  | _ => m
  end.
Fixpoint copy_till (tag : string) (ts : list tok) (sc : list (list (string * string)))
    (m : list (string * string)) (acc : list tok) : option (list tok * list (string * string) * list tok * list (list (string * string))) :=
  match ts with
  | [] => None
  | t :: r =>
    if match t with End _ l => String.eqb l tag | _ => false end then Some (acc, m, ts, sc)
    else copy_till tag r (enter r (leave t sc)) (record_usage t sc m) (acc ++ [t])
  end.
Definition copy_buffer_till_with_namespaces (p : parser) (tag : string) : res (list tok * list (string * string)) :=
  match copy_till tag (toks p) (scopes p) [] [] with
  | Some (xml, m, ts, sc) => Ok (xml, m) (Parser ts sc (parents p))
  | None => Err EofError
  end.

(* str::trim, of ASCII blanks *)
Definition blank (c : ascii) : bool := between 9 13 c || Ascii.eqb c " ".
Fixpoint trim_start (s : string) : string :=
  match s with String c r => if blank c then trim_start r else s | EmptyString => s end.
Fixpoint trim_end (s : string) : string :=
  match s with
  | EmptyString => ""
  | String c r => match trim_end r with
                  | EmptyString => if blank c then "" else String c ""
                  | t => String c t
                  end
  end.
Definition trim (s : string) : string := trim_end (trim_start s).

(* ---- the filters, filters.rs ---- *)
(* lines 296-301, 347-354, 410-417 and 479-606: prefix and namespace; blanks around
   a subtree are kept here, the code trims them *)
Inductive spec : Type :=
| Subtree (namespaces : list (string * string)) (xml : list tok)
| XPath (namespaces : list (string * string)) (path : string).
Record filter_def : Type := Filter { f_name : string; f_spec : spec }.
Record filters : Type := Filters { stream_filters : list filter_def; selection_filters : list filter_def }.
(* lines 45-62: filters by name; a later one takes the place of an earlier *)
Fixpoint by_name (f : filter_def) (l : list filter_def) : list filter_def :=
  match l with
  | [] => [f]
  | g :: r => if String.eqb (f_name g) (f_name f) then f :: r else g :: by_name f r
  end.
Definition filters_new (streams selections : list filter_def) : filters :=
  Filters (fold_left (fun l f => by_name f l) streams []) (fold_left (fun l f => by_name f l) selections []).

(* what the two kinds differ in: namespace, tags *)
Record kind : Type := Kind { k_ns : string; k_tag : string; k_name : string; k_subtree : string; k_xpath : string;
  k_late_name_ns : string }.   (* the namespace of a name that comes after the filter *)
Definition selection_kind : kind :=
  Kind YANG_PUSH_NS "selection-filter" "filter-id" "datastore-subtree-filter" "datastore-xpath-filter" YANG_PUSH_NS.
Definition stream_kind : kind :=
  Kind SUBSCRIBED_NOTIFICATIONS_NS "stream-filter" "name" "stream-subtree-filter" "stream-xpath-filter" YANG_PUSH_NS.

Definition obind {A B} (o : option A) (f : A -> option B) : option B := match o with Some a => f a | None => None end.
(* lines 356-386 and 419-450; 542-574 and 607-641 *)
Definition new_namespaces (w : writer) (k : kind) (l : list (string * string)) : list (string * string) :=
  let m := fold_left (fun m x => map_insert (snd x) (fst x) m) l [] in
  match get_namespace_prefix w (k_ns k), map_get (k_ns k) m with
  | None, None => map_insert (k_ns k) "" m
  | _, _ => m
  end.
Definition write_spec (k : kind) (s : spec) (w : writer) : option writer :=
  let '(l, tag, body) := match s with
                         | Subtree l xml => (l, k_subtree k, xml)
                         | XPath l path => (l, k_xpath k, escaped path)
                         end in
  let m := new_namespaces w k l in
  let added := match m with [] => false | _ => true end in
  obind (if added then push_namespace_binding w m else Some w) (fun w1 =>
  obind (create_ns_element w1 (k_ns k) tag) (fun '(e, w2) =>
  let w3 := write w2 ((Start e :: body) ++ [to_end e]) in
  Some (if added then pop_namespace_binding w3 else w3))).
(* lines 144-170 and 224-256 *)
Definition write_filter (k : kind) (f : filter_def) (w : writer) : option writer :=
  let added := match get_namespace_prefix w (k_ns k) with None => true | Some _ => false end in
  obind (if added then push_namespace_binding w [(k_ns k, "")] else Some w) (fun w1 =>
  obind (create_ns_element w1 (k_ns k) (k_tag k)) (fun '(e, w2) =>
  obind (create_ns_element (write w2 [Start e]) (k_ns k) (k_name k)) (fun '(n, w3) =>
  obind (write_spec k (f_spec f) (write w3 ((Start n :: escaped (f_name f)) ++ [to_end n]))) (fun w4 =>
  let w5 := write w4 [to_end e] in
  Some (if added then pop_namespace_binding w5 else w5))))).
Fixpoint write_all (k : kind) (l : list filter_def) (w : writer) : option writer :=
  match l with [] => Some w | f :: r => obind (write_filter k f w) (write_all k r) end.
(* lines 65-95 *)
Definition write_filters (x : filters) (w : writer) : option writer :=
  let added := match get_namespace_prefix w SUBSCRIBED_NOTIFICATIONS_NS with None => true | Some _ => false end in
  obind (if added then push_namespace_binding w [(SUBSCRIBED_NOTIFICATIONS_NS, "")] else Some w) (fun w1 =>
  obind (create_ns_element w1 SUBSCRIBED_NOTIFICATIONS_NS "filters") (fun '(e, w2) =>
  obind (write_all stream_kind (stream_filters x) (write w2 [Start e])) (fun w3 =>
  obind (write_all selection_kind (selection_filters x) w3) (fun w4 =>
  let w5 := write w4 [to_end e] in
  Some (if added then pop_namespace_binding w5 else w5))))).

(* lines 388-408 and 576-596 *)
Definition read_xpath_filter (k : kind) (p : parser) : res spec :=
  let p := skip_text p in
  if is_tag p (k_ns k) (k_xpath k) then
    bind (open p (k_ns k) (k_xpath k)) (fun _ p =>
    bind (read_xpath_with_namespaces p) (fun '(path, m) p =>
    bind (close p) (fun _ p => Ok (XPath m (trim path)) p)))
  else Err WrongToken.
(* lines 452-473 and 643-664 *)
Definition read_subtree_filter (k : kind) (p : parser) : res spec :=
  let p := skip_text p in
  if is_tag p (k_ns k) (k_subtree k) then
    bind (open p (k_ns k) (k_subtree k)) (fun _ p =>
    bind (copy_buffer_till_with_namespaces p (k_subtree k)) (fun '(xml, m) p =>
    bind (close p) (fun _ p => Ok (Subtree m xml) p)))
  else Err WrongToken.
(* lines 329-345 and 515-531 *)
Definition read_spec (k : kind) (p : parser) : res spec :=
  let p := skip_text p in
  if is_tag p (k_ns k) (k_subtree k) then read_subtree_filter k p
  else if is_tag p (k_ns k) (k_xpath k) then read_xpath_filter k p
  else Err WrongToken.
(* lines 172-208 and 258-292 *)
Definition read_name (ns key : string) (p : parser) : res string :=
  bind (open p ns key) (fun _ p =>
  bind (tag_string p) (fun s p =>
  bind (close p) (fun _ p => Ok (trim s) p))).
Definition read_filter (k : kind) (p : parser) : res filter_def :=
  let p := skip_text p in
  if is_tag p (k_ns k) (k_tag k) then
    bind (open p (k_ns k) (k_tag k)) (fun _ p =>
    let p := skip_text p in
    bind (if is_tag p (k_ns k) (k_name k) then
            bind (read_name (k_ns k) (k_name k) p) (fun n p =>
            bind (read_spec k (skip_text p)) (fun s p => Ok (Filter n s) p))
          else
            bind (read_spec k p) (fun s p =>
            bind (read_name (k_late_name_ns k) (k_name k) (skip_text p)) (fun n p => Ok (Filter n s) p)))
         (fun f p => bind (close (skip_text p)) (fun _ p => Ok f p)))
  else Err WrongToken.
(* lines 112-128; each round reads an event, or fails *)
Fixpoint read_loop (fuel : nat) (start : elem) (streams selections : list filter_def) (p : parser) : res (list filter_def * list filter_def) :=
  match fuel with
  | 0 => Hang
  | S n =>
    if match toks p with End a b :: _ => same_name (e_prefix start) (e_local start) a b | _ => false end then Ok (streams, selections) p
    else if is_tag p SUBSCRIBED_NOTIFICATIONS_NS "stream-filter" then
      bind (read_filter stream_kind p) (fun f p => read_loop n start (streams ++ [f]) selections (skip_text p))
    else if is_tag p YANG_PUSH_NS "selection-filter" then
      bind (read_filter selection_kind p) (fun f p => read_loop n start streams (selections ++ [f]) (skip_text p))
    else bind (skip p) (fun _ p => read_loop n start streams selections (skip_text p))
  end.
(* lines 97-132 *)
Definition read_filters (p : parser) : res filters :=
  let p := skip_text p in
  if is_tag p SUBSCRIBED_NOTIFICATIONS_NS "filters" then
    bind (open p SUBSCRIBED_NOTIFICATIONS_NS "filters") (fun start p =>
    let p := skip_text p in
    bind (read_loop (S (List.length (toks p))) start [] [] p) (fun '(a, b) p =>
    bind (close (skip_text p)) (fun _ p => Ok (filters_new a b) p)))
  else Err WrongToken.
