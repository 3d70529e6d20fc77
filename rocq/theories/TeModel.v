(* The telemetry message and its JSON form:
   crates/yang-push/src/model/telemetry.rs.
   Simplifications: times, addresses, numbers that are written as such, the
   identities of YANG-Push and the list of module versions are leaves, each
   kind with its own type, writing and reading, all parameters.  JSON objects
   are lists of members without a repeated name.  What serde's derive does is
   modelled member by member: an absent or null member is None for an Option,
   an absent member of another type is an error, unknown members are passed
   over. *)
From Coq Require Import NArith List Bool String Ascii Decimal DecimalString.
Import ListNotations.
Open Scope string_scope.

(* serde_json::Value *)
Inductive json :=
| JNull
| JBool (b : bool)
| JNum (n : N)
| JStr (s : string)
| JArr (l : list json)
| JObj (l : list (string * json)).

Definition members := list (string * json).

Fixpoint get (k : string) (o : members) : option json :=
  match o with
  | [] => None
  | (k', j) :: r => if String.eqb k k' then Some j else get k r
  end.

(* the members that are written: one that is skipped is None *)
Fixpoint obj (l : list (string * option json)) : members :=
  match l with
  | [] => []
  | (k, Some j) :: r => (k, j) :: obj r
  | (_, None) :: r => obj r
  end.

(* an Option: absent and null are None *)
Definition opt {A} (dec : json -> option A) (k : string) (o : members)
  : option (option A) :=
  match get k o with
  | None => Some None
  | Some JNull => Some None
  | Some j => match dec j with Some a => Some (Some a) | None => None end
  end.

(* any other type: absent is an error *)
Definition req {A} (dec : json -> option A) (k : string) (o : members) : option A :=
  match get k o with None => None | Some j => dec j end.

Definition dec_str (j : json) : option string :=
  match j with JStr s => Some s | _ => None end.
Definition dec_bool (j : json) : option bool :=
  match j with JBool b => Some b | _ => None end.
Definition dec_any (j : json) : option json := Some j.
Definition dec_obj (j : json) : option members :=
  match j with JObj o => Some o | _ => None end.
Fixpoint dec_list {A} (dec : json -> option A) (l : list json) : option (list A) :=
  match l with
  | [] => Some []
  | j :: r => match dec j, dec_list dec r with
              | Some a, Some s => Some (a :: s)
              | _, _ => None
              end
  end.

Definition bind {A B} (x : option A) (f : A -> option B) : option B :=
  match x with Some a => f a | None => None end.
Notation "'do' p <- x ; f" := (bind x (fun p => f))
  (at level 200, p pattern, x at level 100, f at level 200).

(* telemetry.rs:588-593 serialize_u64_as_string *)
Definition u64_text (n : N) : string := NilZero.string_of_uint (N.to_uint n).
(* 595-601 deserialize_u64_from_string: str::parse::<u64>, which takes a plus
   sign *)
Definition digits_u64 (s : string) : option N :=
  match NilZero.uint_of_string s with
  | None => None
  | Some d => let n := N.of_uint d in
              if N.ltb n 18446744073709551616 then Some n else None
  end.
Definition text_u64 (s : string) : option N :=
  match s with
  | String c r => if Ascii.eqb c "+" then digits_u64 r else digits_u64 s
  | EmptyString => None
  end.

(* 546-566 LabelValue *)
Inductive label_value :=
| NumberValue (n : N)
| StringValue (s : string)
| AnydataValue (j : json).
(* 524-530 Label *)
Record label := mk_label { l_name : string; l_value : label_value }.

Definition write_label (l : label) : json :=
  JObj (("name", JStr (l_name l)) ::
    match l_value l with
    | NumberValue n => [("number-value", JStr (u64_text n))]
    | StringValue s => [("string-value", JStr s)]
    | AnydataValue j => [("anydata-values", j)]
    end).

(* untagged: the first variant that can be read *)
Definition read_label_value (o : members) : option label_value :=
  match (do j <- get "number-value" o; do s <- dec_str j; text_u64 s) with
  | Some n => Some (NumberValue n)
  | None =>
      match (do j <- get "string-value" o; dec_str j) with
      | Some s => Some (StringValue s)
      | None => do j <- get "anydata-values" o; Some (AnydataValue j)
      end
  end.
Definition read_label (j : json) : option label :=
  do o <- dec_obj j;
  do n <- req dec_str "name" o;
  do v <- read_label_value o;
  Some (mk_label n v).

(* 508-513 NetworkOperatorMetadata: an empty list is not written, and there is
   no default *)
Definition write_operator (l : list label) : json :=
  JObj (obj [("labels", match l with [] => None | _ => Some (JArr (map write_label l)) end)]).
Definition read_operator (j : json) : option (list label) :=
  do o <- dec_obj j;
  req (fun j => match j with JArr l => dec_list read_label l | _ => None end) "labels" o.

(* the kinds of leaves *)
Inductive kind := U32 | U16 | Time | Addr | Transport | Encoding | Centi | Changes | Modules.

(* 141-151 EventType; 123-138 SessionProtocol: any other text is Unknown *)
Inductive event := Log | Update | Delete.
Inductive session := YangPush | Netconf | Restconf | Unknown.
Definition write_event (e : event) : json :=
  JStr match e with Log => "log" | Update => "update" | Delete => "delete" end.
Definition read_event (j : json) : option event :=
  do s <- dec_str j;
  if String.eqb s "log" then Some Log else if String.eqb s "update" then Some Update
  else if String.eqb s "delete" then Some Delete else None.
Definition write_session (p : session) : json :=
  JStr match p with YangPush => "yang-push" | Netconf => "netconf"
       | Restconf => "restconf" | Unknown => "unknown" end.
Definition read_session (j : json) : option session :=
  do s <- dec_str j;
  Some (if String.eqb s "yang-push" then YangPush else if String.eqb s "netconf" then Netconf
        else if String.eqb s "restconf" then Restconf else Unknown).

Section Leaves.
Variable leaf : kind -> Type.
Variable enc : forall k, leaf k -> json.
Variable dec : forall k, json -> option (leaf k).

Definition w {A} (f : A -> json) (x : option A) : option json := option_map f x.

(* 154-177 Manifest *)
Record manifest := mk_manifest {
  m_name : option string; m_vendor : option string; m_pen : option (leaf U32);
  m_software : option string; m_flavor : option string; m_os : option string;
  m_os_type : option string }.
Definition write_manifest (m : manifest) : json :=
  JObj (obj [("name", w JStr (m_name m)); ("vendor", w JStr (m_vendor m));
    ("vendor-pen", w (enc U32) (m_pen m)); ("software-version", w JStr (m_software m));
    ("software-flavor", w JStr (m_flavor m)); ("os-version", w JStr (m_os m));
    ("os-type", w JStr (m_os_type m))]).
Definition read_manifest (j : json) : option manifest :=
  do o <- dec_obj j;
  do a <- opt dec_str "name" o; do b <- opt dec_str "vendor" o;
  do c <- opt (dec U32) "vendor-pen" o; do d <- opt dec_str "software-version" o;
  do e <- opt dec_str "software-flavor" o; do f <- opt dec_str "os-version" o;
  do g <- opt dec_str "os-type" o;
  Some (mk_manifest a b c d e f g).

(* 392-405 FilterSpec *)
Record filter_spec := mk_filter {
  f_stream : option string; f_datastore : option string;
  f_xpath : option string; f_subtree : option json }.

(* 459-483 UpdateTrigger *)
Inductive trigger :=
| Periodic (period : option (leaf Centi)) (anchor : option (leaf Time))
| OnChange (dampening : option (leaf Centi)) (sync : option bool)
           (excluded : option (leaf Changes)).

(* 292-319 YangPushSubscriptionMetadata *)
Record subscription := mk_subscription {
  s_id : option (leaf U32); s_filter : filter_spec; s_stop : option (leaf Time);
  s_transport : option (leaf Transport); s_encoding : option (leaf Encoding);
  s_purpose : option string; s_trigger : option trigger;
  s_modules : leaf Modules; s_content : option string }.

Definition write_trigger_body (t : trigger) : json :=
  match t with
  | Periodic p a =>
      JObj (obj [("period", w (enc Centi) p); ("anchor-time", w (enc Time) a)])
  | OnChange d s e =>
      JObj (obj [("dampening-period", w (enc Centi) d); ("sync-on-start", w JBool s);
                 ("excluded-change", w (enc Changes) e)])
  end.
Definition write_subscription (s : subscription) : json :=
  JObj (obj [("id", w (enc U32) (s_id s));
    ("stream", w JStr (f_stream (s_filter s)));
    ("datastore", w JStr (f_datastore (s_filter s)));
    ("xpath-filter", w JStr (f_xpath (s_filter s)));
    ("subtree-filter", f_subtree (s_filter s));
    ("stop-time", w (enc Time) (s_stop s)); ("transport", w (enc Transport) (s_transport s));
    ("encoding", w (enc Encoding) (s_encoding s)); ("purpose", w JStr (s_purpose s));
    ("periodic", match s_trigger s with
                 | Some (Periodic p a) => Some (write_trigger_body (Periodic p a)) | _ => None end);
    ("on-change", match s_trigger s with
                 | Some (OnChange d b e) => Some (write_trigger_body (OnChange d b e)) | _ => None end);
    ("module", Some (enc Modules (s_modules s)));
    ("yang-library-content-id", w JStr (s_content s))]).

(* the flattened enum takes the first member named like a variant *)
Fixpoint first_variant (o : members) : option (string * json) :=
  match o with
  | [] => None
  | (k, j) :: r => if String.eqb k "periodic" || String.eqb k "on-change"
                   then Some (k, j) else first_variant r
  end.
Definition read_trigger (o : members) : option trigger :=
  do (k, j) <- first_variant o;
  do b <- dec_obj j;
  if String.eqb k "periodic" then
    do p <- opt (dec Centi) "period" b; do a <- opt (dec Time) "anchor-time" b;
    Some (Periodic p a)
  else
    do d <- opt (dec Centi) "dampening-period" b; do s <- opt dec_bool "sync-on-start" b;
    do e <- opt (dec Changes) "excluded-change" b;
    Some (OnChange d s e).
(* a flattened Option is None when it cannot be read *)
Definition read_subscription (j : json) : option subscription :=
  do o <- dec_obj j;
  do i <- opt (dec U32) "id" o;
  do a <- opt dec_str "stream" o; do b <- opt dec_str "datastore" o;
  do c <- opt dec_str "xpath-filter" o; do d <- opt dec_any "subtree-filter" o;
  do st <- opt (dec Time) "stop-time" o; do tr <- opt (dec Transport) "transport" o;
  do en <- opt (dec Encoding) "encoding" o; do pu <- opt dec_str "purpose" o;
  do mo <- req (dec Modules) "module" o;
  do ci <- opt dec_str "yang-library-content-id" o;
  Some (mk_subscription i (mk_filter a b c d) st tr en pu (read_trigger o) mo ci).

(* 202-233 TelemetryMessageMetadata *)
Record metadata := mk_metadata {
  t_export_time : option (leaf Time); t_time : leaf Time; t_event : event;
  t_seq : option (leaf U32); t_session : session; t_addr : leaf Addr;
  t_port : option (leaf U16); t_caddr : option (leaf Addr);
  t_cport : option (leaf U16); t_sub : option subscription }.
Definition write_metadata (t : metadata) : json :=
  JObj (obj [("node-export-timestamp", w (enc Time) (t_export_time t));
    ("collection-timestamp", Some (enc Time (t_time t)));
    ("notification-event", Some (write_event (t_event t)));
    ("sequence-number", w (enc U32) (t_seq t));
    ("session-protocol", Some (write_session (t_session t)));
    ("export-address", Some (enc Addr (t_addr t)));
    ("export-port", w (enc U16) (t_port t));
    ("collection-address", w (enc Addr) (t_caddr t));
    ("collection-port", w (enc U16) (t_cport t));
    ("ietf-yang-push-telemetry-message:yang-push-subscription",
     w write_subscription (t_sub t))]).
Definition read_metadata (j : json) : option metadata :=
  do o <- dec_obj j;
  do a <- opt (dec Time) "node-export-timestamp" o; do b <- req (dec Time) "collection-timestamp" o;
  do c <- req read_event "notification-event" o; do d <- opt (dec U32) "sequence-number" o;
  do e <- req read_session "session-protocol" o; do f <- req (dec Addr) "export-address" o;
  do g <- opt (dec U16) "export-port" o; do h <- opt (dec Addr) "collection-address" o;
  do i <- opt (dec U16) "collection-port" o;
  do k <- opt read_subscription "ietf-yang-push-telemetry-message:yang-push-subscription" o;
  Some (mk_metadata a b c d e f g h i k).

(* 71-88 TelemetryMessage; 55-59 TelemetryMessageWrapper *)
Record message := mk_message {
  g_node : option manifest; g_metadata : metadata; g_collector : option manifest;
  g_operator : option (list label); g_payload : option json }.
Definition write_message (m : message) : json :=
  JObj [("ietf-telemetry-message:message",
   JObj (obj [("network-node-manifest", w write_manifest (g_node m));
    ("telemetry-message-metadata", Some (write_metadata (g_metadata m)));
    ("data-collection-manifest", w write_manifest (g_collector m));
    ("network-operator-metadata", w write_operator (g_operator m));
    ("payload", g_payload m)]))].
Definition read_message (j : json) : option message :=
  do x <- dec_obj j;
  do y <- get "ietf-telemetry-message:message" x;
  do o <- dec_obj y;
  do a <- opt read_manifest "network-node-manifest" o;
  do b <- req read_metadata "telemetry-message-metadata" o;
  do c <- opt read_manifest "data-collection-manifest" o;
  do d <- opt read_operator "network-operator-metadata" o;
  do e <- opt dec_any "payload" o;
  Some (mk_message a b c d e).

(* notification.rs:762-790 Target, and cache/storage.rs:784-810
   SubscriptionInfo without the addresses, which are not used here *)
Record target := mk_target {
  x_stream : option string; x_stream_subtree : option json;
  x_stream_xpath : option string; x_replay : option (leaf Time);
  x_datastore : option string; x_datastore_subtree : option json;
  x_datastore_xpath : option string }.
Record info := mk_info {
  i_id : leaf U32; i_target : target; i_stop : option (leaf Time);
  i_transport : option (leaf Transport); i_encoding : option (leaf Encoding);
  i_purpose : option string; i_trigger : option trigger;
  i_models : leaf Modules; i_content : string }.

(* 436-455 From<Target> for FilterSpec *)
Definition filter_of (t : target) : filter_spec :=
  mk_filter (x_stream t) (x_datastore t)
    (match x_stream_xpath t with Some x => Some x | None => x_datastore_xpath t end)
    (match x_stream_subtree t with Some x => Some x | None => x_datastore_subtree t end).
(* 376-390 From<SubscriptionInfo>; udp_notif and json_encoding are the
   identities UDPNotif and Json it puts in.  The trigger is taken over as it
   is (485-506). *)
Definition subscription_of (udp_notif : leaf Transport) (json_encoding : leaf Encoding)
    (i : info) : subscription :=
  mk_subscription (Some (i_id i)) (filter_of (i_target i)) (i_stop i)
    (Some udp_notif) (Some json_encoding) (i_purpose i) (i_trigger i)
    (i_models i) (Some (i_content i)).

End Leaves.
