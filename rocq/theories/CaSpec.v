(* What is claimed of NETCONF capabilities, in terms of strings only *)
From Coq Require Import NArith List String.
Import ListNotations.
From Verif Require Import CaModel.
Open Scope N_scope.

(* Unicode's White_Space *)
Definition white (c : N) : Prop :=
  In c [9; 10; 11; 12; 13; 32; 133; 160; 5760;
        8192; 8193; 8194; 8195; 8196; 8197; 8198; 8199; 8200; 8201; 8202;
        8232; 8233; 8239; 8287; 12288].
Definition blank (s : text) : Prop := Forall white s.
Definition solid (s : text) : Prop := Forall (fun c => ~ white c) s.

Definition begins (p : string) (s : text) : Prop := exists r, s = lit p ++ r.

Definition web_name (s : text) : Prop :=
  begins "urn" s \/ begins "http://" s \/ begins "https://" s.

Definition reserved (s : text) : Prop :=
  begins "urn:ietf:params:netconf:capability:url:1.0" s
  \/ begins "urn:ietf:params:netconf:capability:yang-library:1.0" s
  \/ begins "urn:ietf:params:netconf:capability:yang-library:1.1" s.

(* the registry of RFC 6241, section 10.4: what comes after
   urn:ietf:params:netconf:capability: *)
Definition short (k : standard) : string :=
  match k with
  | WritableRunning => "writable-running:1.0" | Candidate => "candidate:1.0"
  | ConfirmedCommit10 => "confirmed-commit:1.0"
  | ConfirmedCommit11 => "confirmed-commit:1.1"
  | RollbackOnError => "rollback-on-error:1.0"
  | Validate10 => "validate:1.0" | Validate11 => "validate:1.1"
  | Startup => "startup:1.0" | Url _ => "url:1.0" | Xpath => "xpath:1.0"
  | Notification => "notification:1.0" | Interleave => "interleave:1.0"
  | PartialLock => "partial-lock:1.0" | WithDefaults => "with-defaults:1.0"
  | Time => "time:1.0"
  | WithOperationalDefaults => "with-operational-defaults:1.0"
  end.
Definition registered (k : standard) : text :=
  lit "urn:ietf:params:netconf:capability:" ++ lit (short k).

Definition base_name (v : version) : text :=
  lit "urn:ietf:params:netconf:base:"
  ++ lit (match v with V1_0 => "1.0" | V1_1 => "1.1" end).

Definition scheme_name (k : scheme) : string :=
  match k with
  | Http => "http" | Https => "https" | Ftp => "ftp" | Sftp => "sftp"
  | File => "file" | Scp => "scp"
  end.

(* l separated by commas is s *)
Inductive comma_list : list scheme -> text -> Prop :=
| comma_one k : comma_list [k] (lit (scheme_name k))
| comma_more k l s : comma_list l s ->
    comma_list (k :: l) (lit (scheme_name k) ++ lit "," ++ s).

Definition ampersand : N := 38.
Definition comma : N := 44.
Definition question : N := 63.

(* what is used of the dates of the chrono library: a date that is written is
   read back, and is written without blanks and ampersands *)
Definition good_dates {date} (date_of : text -> option date)
    (date_text : date -> text) : Prop :=
  forall d, date_of (date_text d) = Some d
            /\ solid (date_text d) /\ ~ In ampersand (date_text d).

Definition item (s : text) : Prop :=
  solid s /\ ~ In ampersand s /\ ~ In comma s.

(* the capabilities whose text says what they are *)
Definition sayable {date} (c : capability date) : Prop :=
  match c with
  | NetconfBase _ => True
  | Standard (Url []) => False
  | Standard _ => True
  | YangLibrary _ _ id => ~ In ampersand id
  | Yang urn name _ features deviations =>
      web_name urn /\ ~ reserved urn /\ solid urn /\ ~ In question urn
      /\ solid name /\ ~ In ampersand name
      /\ Forall item features /\ Forall item deviations
  | Custom s => forall w r, s = w ++ r -> blank w -> ~ web_name r
  end.
