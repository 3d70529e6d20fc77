(* Telemetry messages, C233-C235 *)
From Coq Require Import NArith List String Bool.
Import ListNotations.
From Verif Require Import TeModel TeSpec TeProofs.
Open Scope string_scope.

Section Telemetry.
Context {leaf : kind -> Type}.
Variable enc : forall k, leaf k -> json.
Variable dec : forall k, json -> option (leaf k).
Notation read := (read_message leaf dec).
Notation write := (write_message leaf enc).

(* C233: a message that is written is read back *)
Theorem C233_written_is_read (m : message leaf) :
  lawful enc dec -> telling m -> read (write m) = Some m.
Proof. intros L. now apply message_round. Qed.

(* C233: different messages are written differently *)
Theorem C233_nothing_is_confused (m m' : message leaf) :
  lawful enc dec -> telling m -> telling m' -> write m = write m' -> m = m'.
Proof.
  intros L H H' E. assert (X : Some m = Some m').
  { rewrite <- (message_round enc dec L m H), <- (message_round enc dec L m' H'). now rewrite E. }
  now injection X.
Qed.

(* C233: a message with operator metadata without labels is written in a form
   that cannot be read *)
Theorem C233_no_labels_refuted (m : message leaf) :
  lawful enc dec -> g_operator leaf m = Some [] -> read (write m) = None.
Proof. intros L. now apply message_no_labels. Qed.

(* C233: a payload that is null is lost *)
Theorem C233_null_payload_refuted (m : message leaf) :
  lawful enc dec -> telling (without_payload m) -> g_payload leaf m = Some JNull ->
  read (write m) = Some (without_payload m) /\ without_payload m <> m.
Proof.
  intros L (_ & O & S) P. split.
  - rewrite message_parts by auto. now rewrite P.
  - intro E. rewrite <- E in P. discriminate.
Qed.

(* C234: what the metadata says of a subscription *)
Theorem C234_subscription_is_kept udp js (i : info leaf) :
  let s := subscription_of leaf udp js i in
  s_id leaf s = Some (i_id leaf i) /\ s_stop leaf s = i_stop leaf i
  /\ s_purpose leaf s = i_purpose leaf i /\ s_trigger leaf s = i_trigger leaf i
  /\ s_modules leaf s = i_models leaf i /\ s_content leaf s = Some (i_content leaf i)
  /\ f_stream (s_filter leaf s) = x_stream leaf (i_target leaf i)
  /\ f_datastore (s_filter leaf s) = x_datastore leaf (i_target leaf i).
Proof. repeat split. Qed.

(* C234: a target that filters its stream or its datastore, not both, keeps
   its filters *)
Theorem C234_filters_are_kept udp js (i : info leaf) x y :
  let t := i_target leaf i in
  let f := s_filter leaf (subscription_of leaf udp js i) in
  (x_stream_xpath leaf t = x /\ x_datastore_xpath leaf t = None
   \/ x_stream_xpath leaf t = None /\ x_datastore_xpath leaf t = x) ->
  (x_stream_subtree leaf t = y /\ x_datastore_subtree leaf t = None
   \/ x_stream_subtree leaf t = None /\ x_datastore_subtree leaf t = y) ->
  f_xpath f = x /\ f_subtree f = y.
Proof.
  cbn. intros [[-> ->]|[-> ->]] [[-> ->]|[-> ->]]; destruct x, y; auto.
Qed.

(* C234: of two filters only that of the stream is kept *)
Theorem C234_both_filters_refuted udp js (i : info leaf) x y :
  x_stream_xpath leaf (i_target leaf i) = Some x ->
  x_datastore_xpath leaf (i_target leaf i) = Some y ->
  f_xpath (s_filter leaf (subscription_of leaf udp js i)) = Some x.
Proof. cbn. now intros -> _. Qed.

(* C234: the transport and the encoding are not those of the subscription *)
Theorem C234_transport_refuted udp js (i : info leaf) tr en :
  i_transport leaf i = Some tr -> tr <> udp -> i_encoding leaf i = Some en -> en <> js ->
  s_transport leaf (subscription_of leaf udp js i) <> i_transport leaf i
  /\ s_encoding leaf (subscription_of leaf udp js i) <> i_encoding leaf i.
Proof. cbn. intros -> A -> B. split; congruence. Qed.

(* C234: the replay start time of a subscription is nowhere in the metadata *)
Theorem C234_replay_time_refuted udp js (i : info leaf) r r' :
  subscription_of leaf udp js (replayed r i) = subscription_of leaf udp js (replayed r' i).
Proof. reflexivity. Qed.

(* C234: what the metadata says reaches the reader of the message *)
Theorem C234_reaches_the_reader udp js (i : info leaf) (m : message leaf) :
  lawful enc dec -> telling m ->
  t_sub leaf (g_metadata leaf m) = Some (subscription_of leaf udp js i) ->
  exists m', read (write m) = Some m' /\
    exists s, t_sub leaf (g_metadata leaf m') = Some s
      /\ s_id leaf s = Some (i_id leaf i) /\ s_content leaf s = Some (i_content leaf i)
      /\ s_modules leaf s = i_models leaf i /\ s_trigger leaf s = i_trigger leaf i.
Proof.
  intros L T H. exists m. split; [now apply message_round|].
  exists (subscription_of leaf udp js i). repeat split; auto.
Qed.

End Telemetry.
Print Assumptions C233_written_is_read.
Print Assumptions C233_nothing_is_confused.
Print Assumptions C233_no_labels_refuted.
Print Assumptions C233_null_payload_refuted.
Print Assumptions C234_subscription_is_kept.
Print Assumptions C234_filters_are_kept.
Print Assumptions C234_both_filters_refuted.
Print Assumptions C234_transport_refuted.
Print Assumptions C234_replay_time_refuted.
Print Assumptions C234_reaches_the_reader.

(* C235: a label is read back; its number is 64 bits *)
Theorem C235_label_is_read_back l : fits l -> read_label (write_label l) = Some l.
Proof. apply label_round. Qed.
Print Assumptions C235_label_is_read_back.

(* C235: numbers are written as text, as RFC 7951 has it for 64 bits *)
Theorem C235_numbers_are_text name n :
  exists s, write_label (mk_label name (NumberValue n))
    = JObj [("name", JStr name); ("number-value", JStr s)] /\ value 0 s = Some n.
Proof. exists (u64_text n). split; [reflexivity|]. apply text_value. Qed.
Print Assumptions C235_numbers_are_text.

(* C235: and a JSON number is not taken for one *)
Theorem C235_json_numbers_are_refused name n :
  read_label (JObj [("name", JStr name); ("number-value", JNum n)]) = None.
Proof. reflexivity. Qed.
Print Assumptions C235_json_numbers_are_refused.

(* C235: a label that cannot be read as a number is not one *)
Theorem C235_number_only_if_it_is_one o n :
  read_label_value o = Some (NumberValue n) ->
  exists s, get "number-value" o = Some (JStr s) /\ text_u64 s = Some n /\ (n < 2 ^ 64)%N.
Proof.
  unfold read_label_value. intro H.
  destruct (get "number-value" o) as [j|] eqn:E; cbn [bind] in H.
  2:{ destruct (bind (get "string-value" o) dec_str); [discriminate|].
      destruct (get "anydata-values" o); discriminate. }
  destruct j; cbn [dec_str bind] in H;
    try (destruct (bind (get "string-value" o) dec_str); [discriminate|];
         destruct (get "anydata-values" o); discriminate).
  destruct (text_u64 s) as [k|] eqn:T.
  - injection H as ->. exists s. split; [reflexivity|]. split; [exact T|].
    assert (D : forall s, digits_u64 s = Some n -> (n < 2 ^ 64)%N).
    { intros s0 H. unfold digits_u64 in H. destruct (DecimalString.NilZero.uint_of_string s0); [|discriminate].
      destruct (N.ltb (N.of_uint u) 18446744073709551616) eqn:L; [|discriminate].
      injection H as <-. apply N.ltb_lt in L. exact L. }
    unfold text_u64 in T. destruct s as [|c r]; [discriminate|].
    destruct (Ascii.eqb c (Ascii.Ascii true true false true false true false false)); eauto.
  - destruct (bind (get "string-value" o) dec_str); [discriminate|].
    destruct (get "anydata-values" o); discriminate.
Qed.
Print Assumptions C235_number_only_if_it_is_one.

(* the leaves of the examples: every kind is a text *)
Definition ex_leaf (k : kind) : Type := string.
Definition ex_enc (k : kind) (x : ex_leaf k) : json := JStr x.
Definition ex_dec (k : kind) (j : json) : option (ex_leaf k) := dec_str j.

Definition ex_info : info ex_leaf :=
  mk_info ex_leaf "7" (mk_target ex_leaf (Some "NETCONF") None (Some "/a") None None None (Some "/b"))
    None (Some "https") (Some "cbor") None
    (Some (OnChange ex_leaf (Some "10") (Some true) None)) "[]" "c1".
Definition ex_message (o : option (list label)) (p : option json) : message ex_leaf :=
  mk_message ex_leaf
    (Some (mk_manifest ex_leaf (Some "r1") None (Some "8072") None None None None))
    (mk_metadata ex_leaf None "now" Update (Some "1") YangPush "192.0.2.1" None None None
      (Some (subscription_of ex_leaf "udp-notif" "json" ex_info)))
    None o p.

Example C233_nonvacuous :
  lawful ex_enc ex_dec
  /\ telling (ex_message (Some [mk_label "n" (NumberValue 12345678901234567890)]) (Some (JBool true)))
  /\ read_message ex_leaf ex_dec (write_message ex_leaf ex_enc (ex_message (Some []) None)) = None
  /\ telling (without_payload (ex_message None (Some JNull))).
Proof.
  split; [intros k x; split; [reflexivity|discriminate]|].
  split.
  { split; [discriminate|]. split.
    - intros l H. injection H as <-. split; [discriminate|].
      constructor; [|constructor]. intros n H. injection H as <-. reflexivity.
    - intros s H. injection H as <-. discriminate. }
  split; [lazy; reflexivity|].
  split; [discriminate|]. split; [discriminate|].
  intros s H. injection H as <-. discriminate.
Qed.

Example C234_nonvacuous :
  let s := subscription_of ex_leaf "udp-notif" "json" ex_info in
  f_xpath (s_filter ex_leaf s) = Some "/a"
  /\ s_transport ex_leaf s = Some "udp-notif" /\ i_transport ex_leaf ex_info = Some "https"
  /\ i_encoding ex_leaf ex_info = Some "cbor"
  /\ t_sub ex_leaf (g_metadata ex_leaf (ex_message None None)) = Some s.
Proof. repeat split. Qed.

Example C235_nonvacuous :
  write_label (mk_label "as" (NumberValue 65000))
    = JObj [("name", JStr "as"); ("number-value", JStr "65000")]
  /\ read_label (JObj [("name", JStr "as"); ("number-value", JStr "+65000")])
     = Some (mk_label "as" (NumberValue 65000))
  /\ read_label (JObj [("name", JStr "as"); ("number-value", JStr "18446744073709551616")]) = None
  /\ read_label (JObj [("number-value", JStr "x"); ("string-value", JStr "y"); ("name", JStr "as")])
     = Some (mk_label "as" (StringValue "y")).
Proof. repeat split; lazy; reflexivity. Qed.
