(* The collector's publishers: crates/collector/src/publishers/kafka_json.rs, kafka_avro.rs,
   kafka_yang.rs and http.rs.

   Each publisher is one task.  It is a state with one transition per thing it waits for:
   the next message or command, the answer of librdkafka's queue, of the schema registry,
   of the schema cache or of the HTTP server.  Every answer is an event, so nothing is
   assumed about them.  Log output is left out; the counters are kept without their labels. *)
From Coq Require Import List Bool Arith NArith ZArith.
From Coq Require Export List.
Import ListNotations.

(* ---- the retry loop: kafka_json.rs lines 254-295, kafka_avro.rs lines 362-414,
        kafka_yang.rs lines 660-702, the same code three times ---- *)
(* what librdkafka answers to ThreadedProducer::send *)
Inductive answer : Type := Queued | QueueFull | Refused.
(* durations in microseconds *)
Definition first_interval : N := 10.
Definition max_interval : N := 5000000.     (* MAX_POLLING_INTERVAL, 5 s *)
Inductive verdict : Type := Sent | Sleep (i : N) (next : N) | Dropped.
Definition attempt (i : N) (a : answer) : verdict :=
  match a with
  | Queued => Sent
  | QueueFull => if (max_interval <? i)%N then Dropped else Sleep i (i * 2)%N
  | Refused => Dropped
  end.

(* the counters of KafkaJsonPublisherStats, kafka_json.rs lines 42-52; Avro's three
   counters of failed conversions are one here *)
Record stats : Type := Stats {
  n_received : nat; n_sent : nat; n_retries : nat; n_decode : nat; n_send : nat
}.
Definition no_stats : stats := Stats 0 0 0 0 0.
Definition add_received (s : stats) : stats := Stats (S (n_received s)) (n_sent s) (n_retries s) (n_decode s) (n_send s).
Definition add_sent (s : stats) : stats := Stats (n_received s) (S (n_sent s)) (n_retries s) (n_decode s) (n_send s).
Definition add_retry (s : stats) : stats := Stats (n_received s) (n_sent s) (S (n_retries s)) (n_decode s) (n_send s).
Definition add_decode (s : stats) : stats := Stats (n_received s) (n_sent s) (n_retries s) (S (n_decode s)) (n_send s).
Definition add_send (s : stats) : stats := Stats (n_received s) (n_sent s) (n_retries s) (n_decode s) (S (n_send s)).

(* BaseRecord: key and payload; the topic is the configured one *)
Record record (B : Type) : Type := Record { r_key : option B; r_value : B }.
Arguments Record {B}. Arguments r_key {B}. Arguments r_value {B}.

(* how a publisher ended *)
Inductive ending : Type := ByShutdown | ByCommandsClosed | ByInputClosed | ByHttpError.

(* ---- kafka_json.rs ---- *)
Section Json.
  Context {T V B : Type}.
  Variable serializer : T -> option (option V * V).   (* the caller's function, writer id applied *)
  Variable to_vec : V -> option B.                    (* serde_json::to_vec *)

  Inductive jphase : Type := JIdle | JTrying (r : record B) (i : N) | JOver (e : ending).
  Record json : Type := Json {
    j_phase : jphase;
    j_in : list T;             (* the messages taken from the input channel *)
    j_out : list (record B);   (* the records librdkafka took *)
    j_slept : N;               (* time spent sleeping so far *)
    j_flushed : bool;          (* producer.flush was called *)
    j_stats : stats
  }.
  Definition json_init : json := Json JIdle [] [] 0 false no_stats.
  Inductive jevent : Type :=
  | JMsg (m : T) | JAnswer (a : answer) | JShutdown | JCommandsClosed | JInputClosed.

  (* send, lines 201-253: the record of a message *)
  Definition json_record (m : T) : option (record B) :=
    match serializer m with
    | None => None
    | Some (key, value) =>
        match to_vec value with
        | None => None
        | Some v =>
            match key with
            | None => Some (Record None v)
            | Some k => match to_vec k with Some k => Some (Record (Some k) v) | None => None end
            end
        end
    end.
  (* run, lines 298-335, and the rest of send, lines 254-295 *)
  Definition json_step (j : json) (e : jevent) : json :=
    match j_phase j, e with
    | JIdle, JMsg m =>
        match json_record m with
        | Some r => Json (JTrying r first_interval) (j_in j ++ [m]) (j_out j) (j_slept j) (j_flushed j) (add_received (j_stats j))
        | None => Json JIdle (j_in j ++ [m]) (j_out j) (j_slept j) (j_flushed j) (add_decode (add_received (j_stats j)))
        end
    | JTrying r i, JAnswer a =>
        match attempt i a with
        | Sent => Json JIdle (j_in j) (j_out j ++ [r]) (j_slept j) (j_flushed j) (add_sent (j_stats j))
        | Sleep d next => Json (JTrying r next) (j_in j) (j_out j) (j_slept j + d)%N (j_flushed j) (add_retry (j_stats j))
        | Dropped => Json JIdle (j_in j) (j_out j) (j_slept j) (j_flushed j) (add_send (j_stats j))
        end
    | JIdle, JShutdown => Json (JOver ByShutdown) (j_in j) (j_out j) (j_slept j) true (j_stats j)
    | JIdle, JCommandsClosed => Json (JOver ByCommandsClosed) (j_in j) (j_out j) (j_slept j) (j_flushed j) (j_stats j)
    | JIdle, JInputClosed => Json (JOver ByInputClosed) (j_in j) (j_out j) (j_slept j) (j_flushed j) (j_stats j)
    | _, _ => j
    end.
  Definition json_run (j : json) (es : list jevent) : json := fold_left json_step es j.
End Json.
Arguments jphase : clear implicits. Arguments json : clear implicits. Arguments jevent : clear implicits.

(* ---- kafka_avro.rs ---- *)
Section Avro.
  Context {T V K B : Type}.
  Variable get_key : T -> option K.
  Variable to_vec : K -> option B.
  Variable get_values : T -> option (list V).         (* AvroConverter::get_avro_values *)

  (* what send returned, lines 417-442 *)
  Inductive outcome : Type := AllSent | PartlySent | NoneSent | NothingToSend | NotConverted.
  (* the loop over the values, lines 334-415 *)
  Inductive aphase : Type :=
  | AIdle
  | AEncoding (key : option B) (v : V) (rest : list V) (ok errs : nat)
  | ATrying (key : option B) (r : record B) (i : N) (rest : list V) (ok errs : nat)
  | AOver (e : ending).
  Record avro : Type := Avro {
    a_phase : aphase;
    a_in : list T;
    a_out : list (record B);
    a_returned : list outcome;   (* what send returned for each message *)
    a_flushed : bool;
    a_stats : stats
  }.
  Definition avro_init : avro := Avro AIdle [] [] [] false no_stats.
  (* AEncoded: AvroEncoder::encode_value, which may ask the schema registry *)
  Inductive aevent : Type :=
  | AMsg (m : T) | AEncoded (b : option B) | AAnswer (a : answer) | AShutdown | ACommandsClosed | AInputClosed.

  (* the end of send, lines 417-442 *)
  Definition conclude (ok errs : nat) : outcome :=
    match ok, errs with
    | O, S _ => NoneSent
    | O, O => NothingToSend
    | S _, O => AllSent
    | S _, S _ => PartlySent
    end.
  Definition next_value (a : avro) (key : option B) (vs : list V) (ok errs : nat) (out : list (record B)) (s : stats) : avro :=
    match vs with
    | v :: rest => Avro (AEncoding key v rest ok errs) (a_in a) out (a_returned a) (a_flushed a) s
    | [] => Avro AIdle (a_in a) out (a_returned a ++ [conclude ok errs]) (a_flushed a) s
    end.
  (* the key of a message: Some None if it has none, None if it cannot be encoded, lines 297-314 *)
  Definition avro_key (m : T) : option (option B) :=
    match get_key m with
    | None => Some None
    | Some k => match to_vec k with Some b => Some (Some b) | None => None end
    end.
  (* run, lines 445-482, and send, lines 296-443 *)
  Definition avro_step (a : avro) (e : aevent) : avro :=
    match a_phase a, e with
    | AIdle, AMsg m =>
        let a := Avro AIdle (a_in a ++ [m]) (a_out a) (a_returned a) (a_flushed a) (add_received (a_stats a)) in
        let failed := Avro AIdle (a_in a) (a_out a) (a_returned a ++ [NotConverted]) (a_flushed a) (add_decode (a_stats a)) in
        match avro_key m with
        | None => failed
        | Some key =>
            match get_values m with
            | None => failed
            | Some vs => next_value a key vs 0 0 (a_out a) (a_stats a)
            end
        end
    | AEncoding key v rest ok errs, AEncoded None =>
        next_value a key rest ok (S errs) (a_out a) (add_decode (a_stats a))
    | AEncoding key v rest ok errs, AEncoded (Some b) =>
        Avro (ATrying key (Record key b) first_interval rest ok errs) (a_in a) (a_out a) (a_returned a) (a_flushed a) (a_stats a)
    | ATrying key r i rest ok errs, AAnswer w =>
        match attempt i w with
        | Sent => next_value a key rest (S ok) errs (a_out a ++ [r]) (add_sent (a_stats a))
        | Sleep _ next => Avro (ATrying key r next rest ok errs) (a_in a) (a_out a) (a_returned a) (a_flushed a) (add_retry (a_stats a))
        | Dropped => next_value a key rest ok (S errs) (a_out a) (add_send (a_stats a))
        end
    | AIdle, AShutdown => Avro (AOver ByShutdown) (a_in a) (a_out a) (a_returned a) true (a_stats a)
    | AIdle, ACommandsClosed => Avro (AOver ByCommandsClosed) (a_in a) (a_out a) (a_returned a) (a_flushed a) (a_stats a)
    | AIdle, AInputClosed => Avro (AOver ByInputClosed) (a_in a) (a_out a) (a_returned a) (a_flushed a) (a_stats a)
    | _, _ => a
    end.
  Definition avro_run (a : avro) (es : list aevent) : avro := fold_left avro_step es a.
End Avro.
Arguments aphase : clear implicits. Arguments avro : clear implicits. Arguments aevent : clear implicits.

(* ---- http.rs ---- *)
Section Http.
  Context {T M : Type}.
  Variable converter : T -> list M.          (* the caller's function, writer id applied *)
  Variable batch_size : nat.

  (* what reqwest's send returns: a response with its status, or an error *)
  Inductive response : Type := Response (status : N) | Failed.
  Inductive hphase : Type := HIdle | HPosting (batch : list M) | HOver (e : ending).
  Record http : Type := Http {
    h_phase : hphase;
    h_in : list T;
    h_posted : list (list M * response);   (* the requests answered, with their answers *)
    h_buf : list M;
    h_received : nat; h_sent : nat; h_failed : nat
  }.
  Definition http_init : http := Http HIdle [] [] [] 0 0 0.
  Inductive hevent : Type := HMsg (m : T) | HResponse (r : response) | HShutdown | HCommandsClosed | HInputClosed.
  (* run, lines 181-228, and send, lines 145-179 *)
  Definition http_step (h : http) (e : hevent) : http :=
    match h_phase h, e with
    | HIdle, HMsg m =>
        let buf := h_buf h ++ converter m in
        Http (if Nat.ltb batch_size (length buf) then HPosting buf else HIdle)
          (h_in h ++ [m]) (h_posted h) buf (S (h_received h)) (h_sent h) (h_failed h)
    | HPosting batch, HResponse (Response s) =>
        Http HIdle (h_in h) (h_posted h ++ [(batch, Response s)]) [] (h_received h) (h_sent h + length batch) (h_failed h)
    | HPosting batch, HResponse Failed =>
        Http (HOver ByHttpError) (h_in h) (h_posted h ++ [(batch, Failed)]) (h_buf h) (h_received h) (h_sent h) (S (h_failed h))
    | HIdle, HShutdown => Http (HOver ByShutdown) (h_in h) (h_posted h) (h_buf h) (h_received h) (h_sent h) (h_failed h)
    | HIdle, HCommandsClosed => Http (HOver ByCommandsClosed) (h_in h) (h_posted h) (h_buf h) (h_received h) (h_sent h) (h_failed h)
    | HIdle, HInputClosed => Http (HOver ByInputClosed) (h_in h) (h_posted h) (h_buf h) (h_received h) (h_sent h) (h_failed h)
    | _, _ => h
    end.
  Definition http_run (h : http) (es : list hevent) : http := fold_left http_step es h.
End Http.
Arguments hphase : clear implicits. Arguments http : clear implicits. Arguments hevent : clear implicits.

(* HttpPublisherEndpoint, lines 24-51: the settings of the client *)
Record endpoint : Type := Endpoint {
  e_tcp_keepalive : option N; e_pool_idle_timeout : option N; e_pool_max_idle : option N;
  e_timeout : option N; e_connect_timeout : option N
}.
(* what reqwest's ClientBuilder was told *)
Record client : Type := Client {
  c_tcp_keepalive : option N; c_pool_idle_timeout : option N; c_pool_max_idle : option N;
  c_timeout : option N; c_connect_timeout : option N
}.
(* create_http_client, lines 246-266 *)
Definition create_http_client (c : endpoint) : client :=
  let b := Client None None None None None in
  let b := match e_tcp_keepalive c with
           | Some t => Client (c_tcp_keepalive b) (c_pool_idle_timeout b) (c_pool_max_idle b) (Some t) (c_connect_timeout b)
           | None => b end in
  let b := match e_pool_idle_timeout c with
           | Some t => Client (c_tcp_keepalive b) (Some t) (c_pool_max_idle b) (c_timeout b) (c_connect_timeout b)
           | None => b end in
  let b := match e_pool_max_idle c with
           | Some t => Client (c_tcp_keepalive b) (c_pool_idle_timeout b) (Some t) (c_timeout b) (c_connect_timeout b)
           | None => b end in
  let b := match e_timeout c with
           | Some t => Client (c_tcp_keepalive b) (c_pool_idle_timeout b) (c_pool_max_idle b) (Some t) (c_connect_timeout b)
           | None => b end in
  match e_connect_timeout c with
  | Some t => Client (c_tcp_keepalive b) (c_pool_idle_timeout b) (c_pool_max_idle b) (c_timeout b) (Some t)
  | None => b end.

(* ---- kafka_yang.rs ---- *)
Section Yang.
  Context {T V B C L : Type}.          (* C: content ids, L: what the schema cache holds for one *)
  Variable eqc : C -> C -> bool.
  Variable content_id : T -> option C.
  Variable get_key : T -> option V.
  Variable serialize_json : T -> option B.
  Variable to_vec : V -> option B.

  (* a record, and the schema id in its headers, lines 635-648 *)
  Record yrecord : Type := YRecord { yr_record : record B; yr_schema : option Z }.
  (* what the schema cache answers to LookupByContentIdOneShot within the five seconds, lines 508-537 *)
  Inductive found : Type := Found (c : C) (l : L) | NotFound | ChannelClosed | TimedOut.
  Inductive yphase : Type :=
  | YIdle
  | YRequesting (r : record B) (c : C)                   (* sending the lookup, lines 494-506 *)
  | YLookup (r : record B) (c : C)                       (* waiting for its answer *)
  | YRegistering (r : record B) (asked c : C) (l : L)    (* loading, extending, registering, lines 540-575 *)
  | YTrying (r : yrecord) (i : N)
  | YOver (e : ending).
  Record yang : Type := Yang {
    y_phase : yphase;
    y_cache : list (C * Z);      (* schema_id_cache *)
    y_in : list T;
    y_out : list yrecord;
    y_asked : list C;            (* the lookups sent to the schema cache *)
    y_registered : list (C * L * Z); (* the registrations the registry confirmed: asked for, library, id *)
    y_flushed : bool;
    y_stats : stats
  }.
  Definition cache_get (m : list (C * Z)) (c : C) : option Z :=
    option_map snd (find (fun e => eqc (fst e) c) m).
  Definition cache_set (m : list (C * Z)) (c : C) (z : Z) : list (C * Z) :=
    (c, z) :: filter (fun e => negb (eqc (fst e) c)) m.
  Variable default : option Z.          (* default_schema_id *)

  (* from_config, lines 363-378: the custom schemas with the ids the registry gave;
     a failure of one ends from_config and there is no publisher *)
  Definition yang_init (custom : list (C * Z)) : yang :=
    Yang YIdle (fold_left (fun m e => cache_set m (fst e) (snd e)) custom []) [] [] [] [] false no_stats.
  (* YRegistered: None for an error of load_schemas, of yang_library, of the builder or of
     register_schema, Some None for a response without an id, lines 540-574 *)
  Inductive yevent : Type :=
  | YMsg (m : T) | YRequested (ok : bool) | YAnswered (f : found) | YRegistered (id : option (option Z))
  | YAnswer (a : answer) | YShutdown | YCommandsClosed | YInputClosed.

  (* send, lines 592-628: payload first, then key *)
  Definition yang_record (m : T) : option (record B) :=
    match serialize_json m with
    | None => None
    | Some v =>
        match get_key m with
        | None => Some (Record None v)
        | Some k => match to_vec k with Some k => Some (Record (Some k) v) | None => None end
        end
    end.
  (* run, lines 705-742; send, lines 592-703; register_schema, lines 422-577 *)
  Definition yang_step (y : yang) (e : yevent) : yang :=
    let goto p := Yang p (y_cache y) (y_in y) (y_out y) (y_asked y) (y_registered y) (y_flushed y) (y_stats y) in
    match y_phase y, e with
    | YIdle, YMsg m =>
        let y' p s := Yang p (y_cache y) (y_in y ++ [m]) (y_out y) (y_asked y) (y_registered y) (y_flushed y) s in
        match yang_record m with
        | None => y' YIdle (add_decode (add_received (y_stats y)))
        | Some r =>
            y' match content_id m with
               | None => YTrying (YRecord r default) first_interval
               | Some c => match cache_get (y_cache y) c with
                           | Some id => YTrying (YRecord r (Some id)) first_interval
                           | None => YRequesting r c
                           end
               end (add_received (y_stats y))
        end
    | YRequesting r c, YRequested true =>
        Yang (YLookup r c) (y_cache y) (y_in y) (y_out y) (y_asked y ++ [c]) (y_registered y) (y_flushed y) (y_stats y)
    | YRequesting r c, YRequested false => goto YIdle
    | YLookup r c, YAnswered (Found c' l) => goto (YRegistering r c c' l)
    | YLookup r c, YAnswered _ => goto (YTrying (YRecord r default) first_interval)
    | YRegistering r c c' l, YRegistered (Some (Some id)) =>
        Yang (YTrying (YRecord r (Some id)) first_interval) (cache_set (y_cache y) c' id) (y_in y) (y_out y)
          (y_asked y) (y_registered y ++ [(c, l, id)]) (y_flushed y) (y_stats y)
    | YRegistering r c c' l, YRegistered _ => goto YIdle
    | YTrying r i, YAnswer a =>
        match attempt i a with
        | Sent => Yang YIdle (y_cache y) (y_in y) (y_out y ++ [r]) (y_asked y) (y_registered y) (y_flushed y) (add_sent (y_stats y))
        | Sleep _ next => Yang (YTrying r next) (y_cache y) (y_in y) (y_out y) (y_asked y) (y_registered y) (y_flushed y) (add_retry (y_stats y))
        | Dropped => Yang YIdle (y_cache y) (y_in y) (y_out y) (y_asked y) (y_registered y) (y_flushed y) (add_send (y_stats y))
        end
    | YIdle, YShutdown => Yang (YOver ByShutdown) (y_cache y) (y_in y) (y_out y) (y_asked y) (y_registered y) true (y_stats y)
    | YIdle, YCommandsClosed => goto (YOver ByCommandsClosed)
    | YIdle, YInputClosed => goto (YOver ByInputClosed)
    | _, _ => y
    end.
  Definition yang_run (y : yang) (es : list yevent) : yang := fold_left yang_step es y.
End Yang.
Arguments yrecord : clear implicits. Arguments found : clear implicits. Arguments yphase : clear implicits.
Arguments yang : clear implicits. Arguments yevent : clear implicits.
