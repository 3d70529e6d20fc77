(* Model of a NETCONF client session, crates/netconf-proto/src/client.rs, at the
   level of messages: the codec below it is NcModel. *)
From Verif Require Import Base MapLib NcModel.
Notation octets := (list N).

(* protocol.rs WellKnownOperation/RpcOperation, as the client uses them *)
Inductive op :=
| OSchema (n : octets) (v : option octets)
| OLibrary
| OFilters
| OSub (id : N)
| OCloseSession
| ORaw (x : octets).
(* protocol.rs:1309-1320 RpcResponse, WellKnownRpcResponse; a YANG library is
   a number here *)
Inductive response := RSchema (t : octets) | RLibrary (l : N) | RData (d : octets) | RRaw (x : octets).
(* protocol.rs:1251-1260 RpcReplyContent; the errors are numbers *)
Inductive content := COk | CData (errors : list N) (r : response).
(* protocol.rs:1146-1149 RpcReply *)
Record reply := Reply { rp_id : option octets; rp_content : content }.
(* What the stream yields: a message, or a codec error. After an error tokio's
   Framed yields the end once and then goes on. *)
Inductive incoming := IReply (r : reply) | IHello (session : option N) (caps : list N) | IRpc | IBad.
(* NetConfSshClientError *)
Inductive err := EBroken | ECodec | EUnexpected | EParse | ESend | ENoSession | ENoBase11 | EBase10.

(* yang_push/subscription.rs: the selection of a subscription (a filter by name
   or by value, or a target that is not a datastore) and the rest of it *)
Inductive selection := SRef (n : N) | SValue (spec : N) | SOther.
Record subscription := Subn { su_sel : selection; su_rest : N }.
Definition filters := list (N * N).

(* client.rs:291-317 NetConfSshClient, with the stream: what is still to be
   read, whether the last read was an error, and what was sent *)
Record sess := Sess { s_next : N; s_lib : option N; s_filters : option filters;
                      s_in : list incoming; s_errored : bool; s_sent : list (octets * op) }.

(* Capability::NetconfBase *)
Definition base10 : N := 10.
Definition base11 : N := 11.
(* client.rs:345-408 exchange_hello, connect: the messages sent (here the
   capabilities of the hello), and the session *)
Definition connect (caps : list N) (sent_ok : bool) (input : list incoming) : list (list N) * (sess + err) :=
  if negb (existsb (N.eqb base11) caps) then ([], inr ENoBase11)
  else if existsb (N.eqb base10) caps then ([], inr EBase10)
  else if negb sent_ok then ([], inr ESend)
  else ([caps],
        match input with
        | [] => inr EBroken
        | IBad :: _ => inr ECodec
        | IHello (Some _) _ :: rest => inl (Sess 10110 None None rest false [])
        | IHello None _ :: _ => inr ENoSession
        | _ :: _ => inr EUnexpected
        end).

Section Session.
(* whether the n-th send succeeds *)
Variable send_ok : nat -> bool.
(* Filters::xml_deserialize; Subscription::xml_deserialize, with whether the
   enclosing element is closed properly *)
Variable filters_of : octets -> option filters.
Variable sub_of : octets -> option (subscription * bool).

(* client.rs:333-337 next_message_id: u32 with the wrapping of a release build
   (a debug build panics) *)
Definition next_id (s : sess) : octets * sess :=
  (dec (s_next s), Sess ((s_next s + 1) mod 2 ^ 32) (s_lib s) (s_filters s) (s_in s) (s_errored s) (s_sent s)).
(* Framed::send of an rpc *)
Definition send (id : octets) (o : op) (s : sess) : sess * option err :=
  if send_ok (length (s_sent s))
  then (Sess (s_next s) (s_lib s) (s_filters s) (s_in s) (s_errored s) (s_sent s ++ [(id, o)]), None)
  else (s, Some ESend).
(* client.rs:410-426 rpc *)
Definition rpc (o : op) (s : sess) : sess * (octets + err) :=
  let (id, s) := next_id s in
  match send id o s with
  | (s, None) => (s, inl id)
  | (s, Some e) => (s, inr e)
  end.
(* client.rs:428-454 rpc_reply *)
Definition with_in (l : list incoming) (e : bool) (s : sess) : sess :=
  Sess (s_next s) (s_lib s) (s_filters s) l e (s_sent s).
Definition rpc_reply (s : sess) : sess * (reply + err) :=
  if s_errored s then (with_in (s_in s) false s, inr EBroken)
  else match s_in s with
       | [] => (s, inr EBroken)
       | IReply r :: l => (with_in l false s, inl r)
       | IHello _ _ :: l | IRpc :: l => (with_in l false s, inr EUnexpected)
       | IBad :: l => (with_in l true s, inr ECodec)
       end.
(* client.rs:561-575 validate_message_id *)
Definition valid_id (id : octets) (r : reply) : bool :=
  match rp_id r with Some i => bytes_eqb id i | None => true end.
(* protocol.rs:1283-1289 responses *)
Definition responses (c : content) : option response :=
  match c with COk => None | CData _ r => Some r end.
(* the shared beginning of the requests: rpc, rpc_reply, validate_message_id *)
Definition request (o : op) (s : sess) : sess * (option response + err) :=
  match rpc o s with
  | (s, inr e) => (s, inr e)
  | (s, inl id) =>
      match rpc_reply s with
      | (s, inr e) => (s, inr e)
      | (s, inl r) => if valid_id id r then (s, inl (responses (rp_content r))) else (s, inr EUnexpected)
      end
  end.
(* client.rs:490-531 get_schema *)
Definition get_schema (n : octets) (v : option octets) (s : sess) : sess * (octets + err) :=
  match request (OSchema n v) s with
  | (s, inl (Some (RSchema t))) => (s, inl t)
  | (s, inl _) => (s, inr EUnexpected)
  | (s, inr e) => (s, inr e)
  end.
(* client.rs:536-559 get_yang_library *)
Definition get_library (s : sess) : sess * (N + err) :=
  match s_lib s with
  | Some l => (s, inl l)
  | None =>
      match request OLibrary s with
      | (s, inl (Some (RLibrary l))) => (s, inl l)
      | (s, inl _) => (s, inr EUnexpected)
      | (s, inr e) => (s, inr e)
      end
  end.
(* client.rs:716-746 get_yang_push_filters *)
Definition get_filters (s : sess) : sess * (filters + err) :=
  match s_filters s with
  | Some f => (s, inl f)
  | None =>
      match request OFilters s with
      | (s, inl (Some (RData d))) => (s, match filters_of d with Some f => inl f | None => inr EParse end)
      | (s, inl _) => (s, inr EUnexpected)
      | (s, inr e) => (s, inr e)
      end
  end.
(* client.rs:748-812 get_yang_push_subscription_by_id *)
Definition closing (b : bool) (x : subscription) : subscription + err := if b then inl x else inr EParse.
Definition get_sub (id : N) (s : sess) : sess * (subscription + err) :=
  match request (OSub id) s with
  | (s, inl (Some (RData d))) =>
      match sub_of d with
      | None => (s, inr EParse)
      | Some (x, closed) =>
          match su_sel x with
          | SRef n =>
              match get_filters s with
              | (s, inr e) => (s, inr e)
              | (s, inl f) =>
                  (s, closing closed (match mget N.eqb n f with Some v => Subn (SValue v) (su_rest x) | None => x end))
              end
          | _ => (s, closing closed x)
          end
      end
  | (s, inl _) => (s, inr EUnexpected)
  | (s, inr e) => (s, inr e)
  end.
(* client.rs:456-487 close: the id is the next one, and the reply's id is not
   looked at *)
Definition is_ok (c : content) : bool := match c with COk => true | _ => false end.
Definition close (s : sess) : sess * option err :=
  match send (dec (s_next s)) OCloseSession s with
  | (s, Some e) => (s, Some e)
  | (s, None) =>
      match rpc_reply s with
      | (s, inr e) => (s, Some e)
      | (s, inl r) => (s, if is_ok (rp_content r) then None else Some EUnexpected)
      end
  end.

(* ---- a user of the session ---- *)
Inductive call := KRpc (o : op) | KReply | KSchema (n : octets) (v : option octets) | KLibrary | KFilters | KSub (id : N).
Inductive outcome :=
| GId (i : octets) | GReply (r : reply) | GSchema (t : octets) | GLibrary (l : N) | GFilters (f : filters)
| GSub (x : subscription) | GFail (e : err).
Definition got {A} (f : A -> outcome) (x : sess * (A + err)) : sess * outcome :=
  (fst x, match snd x with inl a => f a | inr e => GFail e end).
Definition step (s : sess) (k : call) : sess * outcome :=
  match k with
  | KRpc o => got GId (rpc o s)
  | KReply => got GReply (rpc_reply s)
  | KSchema n v => got GSchema (get_schema n v s)
  | KLibrary => got GLibrary (get_library s)
  | KFilters => got GFilters (get_filters s)
  | KSub id => got GSub (get_sub id s)
  end.
Fixpoint run (s : sess) (l : list call) : sess * list outcome :=
  match l with
  | [] => (s, [])
  | k :: r => let (s, o) := step s k in let (s, os) := run s r in (s, o :: os)
  end.
End Session.
