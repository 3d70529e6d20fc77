(* NETCONF capabilities: crates/netconf-proto/src/capabilities.rs, and the
   capabilities of a hello, protocol.rs:146.
   Simplifications: a string is the list of its Unicode code points.
   chrono::NaiveDate is a type with the two functions the code uses of it,
   from_str and to_string, both parameters.  The text of an error is left
   out. *)
From Coq Require Import NArith List Bool String Ascii.
Import ListNotations.
Open Scope N_scope.

Definition text := list N.

(* a literal of the source *)
Definition lit (s : string) : text := map N_of_ascii (list_ascii_of_string s).

(* ---- str of the standard library ---- *)

(* char::is_whitespace: the White_Space property *)
Definition is_white (c : N) : bool :=
  ((9 <=? c) && (c <=? 13)) || (c =? 32) || (c =? 133) || (c =? 160)
  || (c =? 5760) || ((8192 <=? c) && (c <=? 8202)) || (c =? 8232)
  || (c =? 8233) || (c =? 8239) || (c =? 8287) || (c =? 12288).

Fixpoint text_eqb (a b : text) : bool :=
  match a, b with
  | [], [] => true
  | x :: a', y :: b' => (x =? y) && text_eqb a' b'
  | _, _ => false
  end.

Fixpoint trim_start (s : text) : text :=
  match s with
  | c :: r => if is_white c then trim_start r else s
  | [] => []
  end.

(* str::trim *)
Definition trim (s : text) : text := rev (trim_start (rev (trim_start s))).

(* str::strip_prefix *)
Fixpoint strip_prefix (p s : text) : option text :=
  match p, s with
  | [], _ => Some s
  | x :: p', y :: s' => if x =? y then strip_prefix p' s' else None
  | _ :: _, [] => None
  end.

(* str::starts_with *)
Definition starts_with (p s : text) : bool :=
  match strip_prefix p s with Some _ => true | None => false end.

(* str::split on one character: never the empty list *)
Fixpoint split (c : N) (s : text) : list text :=
  match s with
  | [] => [[]]
  | x :: r =>
      if x =? c then [] :: split c r
      else match split c r with h :: t => (x :: h) :: t | [] => [[x]] end
  end.

(* str::split_once *)
Fixpoint split_once (c : N) (s : text) : option (text * text) :=
  match s with
  | [] => None
  | x :: r =>
      if x =? c then Some ([], r)
      else match split_once c r with
           | Some (a, b) => Some (x :: a, b)
           | None => None
           end
  end.

(* [T]::join with a separator of one character *)
Fixpoint join (c : N) (l : list text) : text :=
  match l with
  | [] => []
  | [x] => x
  | x :: r => x ++ c :: join c r
  end.

(* ---- the types ---- *)

(* capabilities.rs:319-325 NetconfVersion *)
Inductive version := V1_0 | V1_1.

(* 428-446 UrlScheme *)
Inductive scheme := Http | Https | Ftp | Sftp | File | Scp.

(* 349-367 StandardCapability *)
Inductive standard :=
| WritableRunning | Candidate | ConfirmedCommit10 | ConfirmedCommit11
| RollbackOnError | Validate10 | Validate11 | Startup
| Url (l : list scheme) | Xpath | Notification | Interleave | PartialLock
| WithDefaults | Time | WithOperationalDefaults.

Section Dates.
Variable date : Type.
Variable date_of : text -> option date.   (* NaiveDate::from_str *)
Variable date_text : date -> text.        (* NaiveDate::to_string *)

(* 51-67 Capability; 328-345 YangLibrary; 450-457 YangCapability *)
Inductive capability :=
| NetconfBase (v : version)
| YangLibrary (v : version) (revision : date) (id : text)
| Standard (k : standard)
| Yang (urn name : text) (revision : option date)
       (features deviations : list text)
| Custom (s : text).

(* 69-82 CapabilityParsingError, without its text *)
Inductive error :=
| InvalidUrlScheme | UrlSchemeIsNotDefined | InvalidYangUrnSchema
| InvalidYangLibrary.

Inductive outcome :=
| Ok (c : capability)
| Err (e : error).

(* 23-43 the constants *)
Definition CAP_URL := lit "urn:ietf:params:netconf:capability:url:1.0".
Definition CAP_LIB_1_0 := lit "urn:ietf:params:netconf:capability:yang-library:1.0".
Definition CAP_LIB_1_1 := lit "urn:ietf:params:netconf:capability:yang-library:1.1".

(* 97-119 the arms of from_str for a whole name *)
Definition fixed : list (text * capability) :=
  [ (lit "urn:ietf:params:netconf:capability:writable-running:1.0", Standard WritableRunning);
    (lit "urn:ietf:params:netconf:capability:candidate:1.0", Standard Candidate);
    (lit "urn:ietf:params:netconf:capability:confirmed-commit:1.0", Standard ConfirmedCommit10);
    (lit "urn:ietf:params:netconf:capability:confirmed-commit:1.1", Standard ConfirmedCommit11);
    (lit "urn:ietf:params:netconf:capability:rollback-on-error:1.0", Standard RollbackOnError);
    (lit "urn:ietf:params:netconf:capability:validate:1.0", Standard Validate10);
    (lit "urn:ietf:params:netconf:capability:validate:1.1", Standard Validate11);
    (lit "urn:ietf:params:netconf:capability:startup:1.0", Standard Startup);
    (lit "urn:ietf:params:netconf:capability:xpath:1.0", Standard Xpath);
    (lit "urn:ietf:params:netconf:capability:notification:1.0", Standard Notification);
    (lit "urn:ietf:params:netconf:capability:interleave:1.0", Standard Interleave);
    (lit "urn:ietf:params:netconf:capability:partial-lock:1.0", Standard PartialLock);
    (lit "urn:ietf:params:netconf:capability:with-defaults:1.0", Standard WithDefaults);
    (lit "urn:ietf:params:netconf:base:1.0", NetconfBase V1_0);
    (lit "urn:ietf:params:netconf:base:1.1", NetconfBase V1_1);
    (lit "urn:ietf:params:netconf:capability:time:1.0", Standard Time);
    (lit "urn:ietf:params:netconf:capability:with-operational-defaults:1.0",
     Standard WithOperationalDefaults) ].

Fixpoint lookup (s : text) (l : list (text * capability)) : option capability :=
  match l with
  | [] => None
  | (k, c) :: r => if text_eqb s k then Some c else lookup s r
  end.

(* 131-143 one scheme of a :url capability *)
Definition scheme_of (s : text) : option scheme :=
  if text_eqb s (lit "http") then Some Http
  else if text_eqb s (lit "https") then Some Https
  else if text_eqb s (lit "ftp") then Some Ftp
  else if text_eqb s (lit "sftp") then Some Sftp
  else if text_eqb s (lit "file") then Some File
  else if text_eqb s (lit "scp") then Some Scp
  else None.

(* 129-145 the loop over the schemes *)
Fixpoint schemes_of (l : list text) : option (list scheme) :=
  match l with
  | [] => Some []
  | x :: r =>
      match scheme_of x with
      | None => None
      | Some k => match schemes_of r with Some ks => Some (k :: ks) | None => None end
      end
  end.

(* 120-150 the :url arm *)
Definition parse_url (cap : text) : outcome :=
  match strip_prefix CAP_URL cap with
  | None => Err UrlSchemeIsNotDefined
  | Some x =>
      match strip_prefix (lit "?scheme=") x with
      | None => Err UrlSchemeIsNotDefined
      | Some l =>
          match schemes_of (split 44 l) with
          | None => Err InvalidUrlScheme
          | Some ks => Ok (Standard (Url ks))
          end
      end
  end.

(* 162-184, 204-226 the loop over the parameters of a YANG library
   capability; key is "module-set-id" or "content-id" *)
Fixpoint lib_params (key : text) (ps : list text) (revision : option date)
    (id : option text) : error + (option date * option text) :=
  match ps with
  | [] => inr (revision, id)
  | p :: r =>
      match split_once 61 p with
      | None => lib_params key r revision id
      | Some (k, v) =>
          if text_eqb k (lit "revision") then
            match date_of v with
            | None => inl InvalidYangUrnSchema
            | Some d => lib_params key r (Some d) id
            end
          else if text_eqb k key then lib_params key r revision (Some v)
          else inl InvalidYangLibrary
      end
  end.

(* 151-192, 193-234 the two YANG library arms; both take the parameters from
   the string that was given, not from the trimmed one *)
Definition parse_lib (v : version) (prefix key s : text) : outcome :=
  match strip_prefix prefix s with
  | None => Err InvalidYangLibrary
  | Some x =>
      match strip_prefix (lit "?") x with
      | None => Err InvalidYangLibrary
      | Some params =>
          match lib_params key (split 38 params) None None with
          | inl e => Err e
          | inr (Some d, Some id) => Ok (YangLibrary v d id)
          | inr _ => Err InvalidYangLibrary
          end
      end
  end.

(* what the loop 250-273 has gathered *)
Record gathered := mk_gathered {
  g_name : option text; g_revision : option date;
  g_features : list text; g_deviations : list text }.

(* the loop 250-273: Ok None is the early return of a Custom capability *)
Fixpoint yang_params (ps : list text) (g : gathered) : error + option gathered :=
  match ps with
  | [] => inr (Some g)
  | p :: r =>
      match split_once 61 p with
      | None => yang_params r g
      | Some (k, v) =>
          if text_eqb k (lit "module") then
            yang_params r (mk_gathered (Some v) (g_revision g) (g_features g) (g_deviations g))
          else if text_eqb k (lit "revision") then
            match date_of v with
            | None => inl InvalidYangUrnSchema
            | Some d => yang_params r (mk_gathered (g_name g) (Some d) (g_features g) (g_deviations g))
            end
          else if text_eqb k (lit "features") then
            yang_params r (mk_gathered (g_name g) (g_revision g) (split 44 v) (g_deviations g))
          else if text_eqb k (lit "deviations") then
            yang_params r (mk_gathered (g_name g) (g_revision g) (g_features g) (split 44 v))
          else inr None
      end
  end.

(* 235-284 the arm for a URN or URL *)
Definition parse_yang (s cap : text) : outcome :=
  match split_once 63 cap with
  | None => Ok (Custom s)
  | Some (urn, params) =>
      match yang_params (split 38 params) (mk_gathered None None [] []) with
      | inl e => Err e
      | inr None => Ok (Custom s)
      | inr (Some g) =>
          match g_name g with
          | None => Err InvalidYangUrnSchema
          | Some name =>
              Ok (Yang urn name (g_revision g) (g_features g) (g_deviations g))
          end
      end
  end.

(* 92-288 Capability::from_str *)
Definition from_str (s : text) : outcome :=
  let cap := trim s in
  match lookup cap fixed with
  | Some c => Ok c
  | None =>
      if starts_with CAP_URL s then parse_url cap
      else if starts_with CAP_LIB_1_0 s
           then parse_lib V1_0 CAP_LIB_1_0 (lit "module-set-id") s
      else if starts_with CAP_LIB_1_1 s
           then parse_lib V1_1 CAP_LIB_1_1 (lit "content-id") s
      else if starts_with (lit "urn") cap || starts_with (lit "http://") cap
              || starts_with (lit "https://") cap
           then parse_yang s cap
      else Ok (Custom s)
  end.

(* 428-446 Display of UrlScheme *)
Definition scheme_text (k : scheme) : text :=
  match k with
  | Http => lit "http" | Https => lit "https" | Ftp => lit "ftp"
  | Sftp => lit "sftp" | File => lit "file" | Scp => lit "scp"
  end.

(* 369-424 Display of StandardCapability *)
Definition standard_text (k : standard) : text :=
  match k with
  | WritableRunning => lit "urn:ietf:params:netconf:capability:writable-running:1.0"
  | Candidate => lit "urn:ietf:params:netconf:capability:candidate:1.0"
  | ConfirmedCommit10 => lit "urn:ietf:params:netconf:capability:confirmed-commit:1.0"
  | ConfirmedCommit11 => lit "urn:ietf:params:netconf:capability:confirmed-commit:1.1"
  | RollbackOnError => lit "urn:ietf:params:netconf:capability:rollback-on-error:1.0"
  | Validate10 => lit "urn:ietf:params:netconf:capability:validate:1.0"
  | Validate11 => lit "urn:ietf:params:netconf:capability:validate:1.1"
  | Startup => lit "urn:ietf:params:netconf:capability:startup:1.0"
  | Url l => lit "urn:ietf:params:netconf:capability:url:1.0?scheme="
             ++ join 44 (map scheme_text l)
  | Xpath => lit "urn:ietf:params:netconf:capability:xpath:1.0"
  | Notification => lit "urn:ietf:params:netconf:capability:notification:1.0"
  | Interleave => lit "urn:ietf:params:netconf:capability:interleave:1.0"
  | PartialLock => lit "urn:ietf:params:netconf:capability:partial-lock:1.0"
  | WithDefaults => lit "urn:ietf:params:netconf:capability:with-defaults:1.0"
  | Time => lit "urn:ietf:params:netconf:capability:time:1.0"
  | WithOperationalDefaults =>
      lit "urn:ietf:params:netconf:capability:with-operational-defaults:1.0"
  end.

(* 493-519 Display of YangCapability: the parameters it writes *)
Definition yang_written (name : text) (revision : option date)
    (features deviations : list text) : list text :=
  [lit "module=" ++ name]
  ++ (match revision with Some d => [lit "revision=" ++ date_text d] | None => [] end)
  ++ (match features with [] => [] | _ => [lit "features=" ++ join 44 features] end)
  ++ (match deviations with [] => [] | _ => [lit "deviations=" ++ join 44 deviations] end).

(* 51-67, 319-345 Display of Capability *)
Definition to_text (c : capability) : text :=
  match c with
  | NetconfBase V1_0 => lit "urn:ietf:params:netconf:base:1.0"
  | NetconfBase V1_1 => lit "urn:ietf:params:netconf:base:1.1"
  | YangLibrary V1_0 d id =>
      lit "urn:ietf:params:netconf:capability:yang-library:1.0?revision="
      ++ date_text d ++ lit "&module-set-id=" ++ id
  | YangLibrary V1_1 d id =>
      lit "urn:ietf:params:netconf:capability:yang-library:1.1?revision="
      ++ date_text d ++ lit "&content-id=" ++ id
  | Standard k => standard_text k
  | Yang urn name revision features deviations =>
      urn ++ lit "?" ++ join 38 (yang_written name revision features deviations)
  | Custom s => s
  end.

(* protocol.rs:146 with xml_utils.rs:671-694: the first capability that is
   refused ends the reading of the hello *)
Fixpoint hello_capabilities (l : list text) : error + list capability :=
  match l with
  | [] => inr []
  | s :: r =>
      match from_str s with
      | Err e => inl e
      | Ok c => match hello_capabilities r with
                | inl e => inl e
                | inr cs => inr (c :: cs)
                end
      end
  end.

End Dates.

Arguments NetconfBase {date}. Arguments YangLibrary {date}.
Arguments Standard {date}. Arguments Yang {date}. Arguments Custom {date}.
Arguments Ok {date}. Arguments Err {date}.
Arguments from_str {date}. Arguments to_text {date}.
Arguments hello_capabilities {date}.
Arguments fixed {date}. Arguments lookup {date}.
Arguments parse_url {date}. Arguments parse_lib {date}. Arguments parse_yang {date}.
Arguments lib_params {date}. Arguments yang_params {date}.
Arguments mk_gathered {date}. Arguments g_name {date}. Arguments g_revision {date}.
Arguments g_features {date}. Arguments g_deviations {date}.
Arguments yang_written {date}.
