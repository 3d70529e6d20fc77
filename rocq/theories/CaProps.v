(* NETCONF capabilities, C229-C232 *)
From Coq Require Import NArith List String.
Import ListNotations.
From Verif Require Import CaModel CaSpec CaProofs.
Open Scope N_scope.

Section Capabilities.
Context {date : Type}.
Variable date_of : text -> option date.
Variable date_text : date -> text.
Notation read := (from_str date_of).
Notation written := (to_text date_text).

(* C229: a capability that is written is read back *)
Theorem C229_written_is_read (c : capability date) :
  good_dates date_of date_text -> sayable c -> read (written c) = Ok c.
Proof. apply to_text_read. Qed.

(* C229: what was read, written again, is read the same *)
Theorem C229_reading_is_stable s c :
  good_dates date_of date_text -> solid s ->
  read s = Ok c -> read (written c) = Ok c.
Proof. apply read_again. Qed.

(* C230: a name without parameters is accepted whatever it is *)
Theorem C230_plain_names_are_accepted s :
  ~ In question s -> ~ reserved s -> exists c, read s = Ok c.
Proof. apply no_query_accepted. Qed.

(* C230: a capability that is no URN and no web address is kept as it is *)
Theorem C230_other_names_are_kept s :
  (forall w r, s = w ++ r -> blank w -> ~ web_name r) -> read s = Ok (Custom s).
Proof. apply custom_kept. Qed.

(* C230: so is a name with a parameter that is not known *)
Theorem C230_unknown_parameters_are_kept u k v :
  web_name u -> ~ reserved u -> solid u -> ~ In question u ->
  solid k -> solid v -> ~ In 61 k -> ~ In ampersand k ->
  k <> lit "module" -> k <> lit "revision" -> k <> lit "features" -> k <> lit "deviations" ->
  read (u ++ lit "?" ++ k ++ lit "=" ++ v) = Ok (Custom (u ++ lit "?" ++ k ++ lit "=" ++ v)).
Proof. apply unknown_key_custom. Qed.

(* C230: RFC 6241 8.1 has a peer ignore the capabilities it does not
   understand; a name whose parameters have no value is an error instead *)
Theorem C230_ignored_refuted u q :
  web_name u -> ~ reserved u -> solid u -> ~ In question u -> solid q -> ~ In 61 q ->
  exists e, read (u ++ lit "?" ++ q) = Err e.
Proof. intros. eexists. now apply bare_query_refused. Qed.

(* C230: and one capability in error is the end of the hello *)
Theorem C230_one_error_refuses_the_hello before s e after :
  read s = Err e -> exists e', hello_capabilities date_of (before ++ s :: after) = inl e'.
Proof. apply hello_refused. Qed.

(* C230: otherwise the hello has what was sent, in order *)
Theorem C230_hello_has_all l cs :
  hello_capabilities date_of l = inr cs <-> Forall2 (fun s c => read s = Ok c) l cs.
Proof. apply hello_all. Qed.

(* C231: white space around a capability does not matter *)
Theorem C231_standard_names a b k : (forall l, k <> Url l) -> blank a -> blank b ->
  read (a ++ registered k ++ b) = Ok (Standard k).
Proof.
  intros H Ha Hb. apply fixed_around; auto using registered_solid, lookup_standard.
  destruct k; discriminate.
Qed.

Theorem C231_base_names a b v : blank a -> blank b ->
  read (a ++ base_name v ++ b) = Ok (NetconfBase v).
Proof.
  intros Ha Hb. apply fixed_around; auto using base_solid, lookup_base.
  destruct v; discriminate.
Qed.

Theorem C231_modules a b urn name revision features deviations :
  good_dates date_of date_text -> blank a -> blank b ->
  sayable (Yang urn name revision features deviations) ->
  read (a ++ written (Yang urn name revision features deviations) ++ b)
  = Ok (Yang urn name revision features deviations).
Proof. apply yang_read. Qed.

(* C231: it does for :url, which is not recognised after white space *)
Theorem C231_url_refuted w l : w <> [] -> blank w -> l <> [] ->
  read (w ++ written (Standard (Url l))) = Ok (Custom (w ++ written (Standard (Url l)))).
Proof. apply url_led. Qed.

(* C231: and for the YANG library, whose id takes in what follows *)
Theorem C231_library_refuted v d id w : good_dates date_of date_text ->
  ~ In ampersand id -> blank w ->
  read (written (YangLibrary v d id) ++ w) = Ok (YangLibrary v d (id ++ w)).
Proof. apply lib_trailed. Qed.

(* C232: a standard capability is reported only for its registered name *)
Theorem C232_recognised_by_name s k : read s = Ok (Standard k) ->
  exists a b, blank a /\ blank b /\
  ((forall l, k <> Url l) /\ s = a ++ registered k ++ b
   \/ exists l y, k = Url l /\ comma_list l y
        /\ s = registered k ++ lit "?scheme=" ++ y ++ b).
Proof. apply from_standard. Qed.

Theorem C232_base_by_name s v : read s = Ok (NetconfBase v) ->
  exists a b, blank a /\ blank b /\ s = a ++ base_name v ++ b.
Proof. apply from_base. Qed.

(* C232: every list of schemes is recognised *)
Theorem C232_url_schemes l y b : comma_list l y -> blank b ->
  read (registered (Url l) ++ lit "?scheme=" ++ y ++ b) = Ok (Standard (Url l)).
Proof.
  intros H Hb. apply comma_list_inv in H. destruct H as [NE ->].
  replace (registered (Url l) ++ lit "?scheme=" ++ join 44 (map scheme_text l) ++ b)
    with (standard_text (Url l) ++ b); [now apply url_read|].
  rewrite url_text, <- !app_assoc. reflexivity.
Qed.

(* C232: RFC 6243 4.3 has a device write :with-defaults with its basic-mode;
   written so it is not recognised *)
Theorem C232_with_defaults_refuted mode : solid mode ->
  read (registered WithDefaults ++ lit "?basic-mode=" ++ mode)
  = Ok (Custom (registered WithDefaults ++ lit "?basic-mode=" ++ mode)).
Proof.
  intro S. apply (unknown_key_custom date_of (registered WithDefaults) (lit "basic-mode") mode);
    auto; try discriminate; try noin; try (apply solid_list; reflexivity).
  - left. exists (lit ":ietf:params:netconf:capability:with-defaults:1.0"). reflexivity.
  - intros [[r H]|[[r H]|[r H]]]; apply (f_equal (starts_with (lit "urn:ietf:params:netconf:capability:w"))) in H;
      discriminate.
Qed.

End Capabilities.
Print Assumptions C229_written_is_read.
Print Assumptions C229_reading_is_stable.
Print Assumptions C230_plain_names_are_accepted.
Print Assumptions C230_other_names_are_kept.
Print Assumptions C230_unknown_parameters_are_kept.
Print Assumptions C230_ignored_refuted.
Print Assumptions C230_one_error_refuses_the_hello.
Print Assumptions C230_hello_has_all.
Print Assumptions C231_standard_names.
Print Assumptions C231_base_names.
Print Assumptions C231_modules.
Print Assumptions C231_url_refuted.
Print Assumptions C231_library_refuted.
Print Assumptions C232_recognised_by_name.
Print Assumptions C232_base_by_name.
Print Assumptions C232_url_schemes.
Print Assumptions C232_with_defaults_refuted.

(* a calendar of one day, for the examples *)
Definition ex_of1 (s : text) : option unit :=
  if text_eqb s (lit "2024-01-31") then Some tt else None.
Definition ex_text1 (d : unit) : text := lit "2024-01-31".

Example C229_nonvacuous :
  good_dates ex_of1 ex_text1
  /\ sayable (Yang (lit "urn:example:m") (lit "m") (Some tt) [lit "a"; lit "b"] (@nil text))
  /\ to_text ex_text1 (Yang (lit "urn:example:m") (lit "m") (Some tt) [lit "a"; lit "b"] [])
     = lit "urn:example:m?module=m&revision=2024-01-31&features=a,b"
  /\ from_str ex_of1 (lit "urn:example:m?features=a,b&revision=2024-01-31&module=m")
     = Ok (Yang (lit "urn:example:m") (lit "m") (Some tt) [lit "a"; lit "b"] []).
Proof.
  split.
  { intros []. split; [reflexivity|]. split; [apply solid_list; reflexivity|noin]. }
  split.
  { cbn [sayable]. split; [left; exists (lit ":example:m"); reflexivity|].
    split; [intros [[r H]|[[r H]|[r H]]]; apply (f_equal (starts_with (lit "urn:i"))) in H; discriminate|].
    repeat split; try noin; try (apply solid_list; reflexivity);
      repeat (constructor; [repeat split; try noin; apply solid_list; reflexivity|]); constructor. }
  split; lazy; reflexivity.
Qed.

(* with white space inside, what was read may be read differently once it is
   written: features "a " comes to stand at the end *)
Theorem C229_white_space_refuted :
  exists s c, from_str ex_of1 s = Ok c /\ from_str ex_of1 (to_text ex_text1 c) <> Ok c.
Proof.
  exists (lit "urn:x?features=a &module=m"), (Yang (lit "urn:x") (lit "m") None [lit "a "] []).
  split; [lazy; reflexivity|]. lazy. discriminate.
Qed.
Print Assumptions C229_white_space_refuted.

(* a :url capability without schemes can be made and written, not read *)
Theorem C229_no_schemes_refuted :
  exists e, from_str ex_of1 (to_text ex_text1 (Standard (Url []))) = Err e.
Proof. eexists. lazy. reflexivity. Qed.
Print Assumptions C229_no_schemes_refuted.

Example C230_nonvacuous :
  from_str ex_of1 (lit "http://example.com/feature?fast") = Err InvalidYangUrnSchema
  /\ from_str ex_of1 (lit "http://example.com/feature?speed=9")
     = Ok (Custom (lit "http://example.com/feature?speed=9"))
  /\ from_str ex_of1 (lit "urn:example:x") = Ok (Custom (lit "urn:example:x"))
  /\ hello_capabilities ex_of1 [lit "urn:ietf:params:netconf:base:1.1";
       lit "http://example.com/feature?fast"] = inl InvalidYangUrnSchema
  /\ hello_capabilities ex_of1 [lit "urn:ietf:params:netconf:base:1.1"; lit "x"]
     = inr [NetconfBase V1_1; Custom (lit "x")].
Proof. repeat split; lazy; reflexivity. Qed.

Example C231_nonvacuous :
  blank (lit "  ") /\
  from_str ex_of1 (lit " urn:ietf:params:netconf:capability:candidate:1.0 ")
    = Ok (Standard Candidate)
  /\ from_str ex_of1 (lit " urn:ietf:params:netconf:capability:url:1.0?scheme=ftp")
     = Ok (Custom (lit " urn:ietf:params:netconf:capability:url:1.0?scheme=ftp"))
  /\ from_str ex_of1 (lit "urn:ietf:params:netconf:capability:yang-library:1.1?revision=2024-01-31&content-id=7 ")
     = Ok (YangLibrary V1_1 tt (lit "7 ")).
Proof.
  split; [repeat constructor; apply is_white_spec; reflexivity|].
  repeat split; lazy; reflexivity.
Qed.

Example C232_nonvacuous :
  from_str ex_of1 (lit "urn:ietf:params:netconf:capability:url:1.0?scheme=http,ftp,file")
    = Ok (Standard (Url [Http; Ftp; File]))
  /\ comma_list [Http; Ftp] (lit "http,ftp")
  /\ from_str ex_of1 (lit "urn:ietf:params:netconf:capability:with-defaults:1.0?basic-mode=explicit")
     = Ok (Custom (lit "urn:ietf:params:netconf:capability:with-defaults:1.0?basic-mode=explicit")).
Proof.
  split; [lazy; reflexivity|]. split; [|lazy; reflexivity].
  apply (comma_more Http [Ftp] (lit "ftp")). apply (comma_one Ftp).
Qed.
