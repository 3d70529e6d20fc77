(* The collector actors: crates/flow-service/src/flow_actor.rs and, with one
   sender per subscriber, crates/udp-notif-service/src/actor.rs.
   An actor is a state machine over the events it handles one at a time. The
   select! loop (flow_actor.rs:818-877) gives commands priority over packets;
   here the events come in any order. A command and its reply are one event and
   its outputs; logging is left out, and of the statistics only "decoded" is
   kept, as an output. *)
From Verif Require Import Base MapLib.

(* SocketAddr: IP address and port *)
Definition peer : Type := (N * N)%type.
Definition peer_eqb (a b : peer) : bool := (fst a =? fst b) && (snd a =? snd b).

Section Actor.
(* C: the decoder kept for a peer (FlowInfoCodec, or UdpPacketCodec), fresh its
   default value; dec: one decode call on the datagram, giving the new decoder
   state and the packet, None standing for Ok(None) and Err (decode_pkt
   342-411; resetting the per-template counts, 365-390, is part of dec). Chan:
   a sender. hash: DefaultHasher over the IP address (523-526). *)
Context {C Pk Chan : Type} (fresh : C) (dec : C -> list N -> C * option Pk) (hash : N -> N).

(* flow_actor.rs PeerUsage: last_set, current_count. Times are numbers of some
   clock tick; current_count (usize) is unbounded *)
Definition usage : Type := (N * N)%type.
(* flow_actor.rs:225-238 *)
Record actor : Type := mkActor {
  a_next : N;                        (* next_subscriber_id *)
  a_subs : list (N * list Chan);     (* subscribers *)
  a_usage : list (peer * usage);     (* peers_usage *)
  a_clients : list (peer * C);       (* clients *)
  a_run : bool                       (* the loop has not ended *)
}.
(* 319-337 *)
Definition actor_new : actor := mkActor 1 [] [] [] true.

(* What the actor reacts to. A packet event carries what its subscribers'
   channels do at that time: [closed] as seen by the retain call (497-504), and
   [takes] whether the send goes through within the timeout (414-487). The flag
   of EvSubscribe is whether the caller still waits for the reply. *)
Inductive event : Type :=
  | EvPacket (now : N) (p : peer) (b : list N) (closed takes : Chan -> bool)
  | EvSubscribe (senders : list Chan) (heard : bool)
  | EvUnsubscribe (id : N)
  | EvPurgePeer (p : peer)
  | EvPurgeUnused (now dur : N)
  | EvGetPeers
  | EvGetTemplates (p : peer)
  | EvShutdown
  | EvCmdClosed.
Inductive out : Type :=
  | ODecoded (p : peer) (k : Pk)            (* stats.decoded *)
  | OIgnored (p : peer)                     (* no packet came out *)
  | OSent (id : N) (c : Chan) (p : peer) (k : Pk)
  | ODropped (id : N) (c : Chan) (p : peer) (k : Pk)
  | OSubscribed (id : N)
  | OUnsubscribed (id : N)
  | OPurged (p : peer) (found : bool)
  | OCleared (ps : list peer)
  | OPeers (ps : list peer)
  | OTemplates (p : peer) (c : option C)
  | OStopped
  | OPanic.

(* 497-504: the subscribers that stay *)
Definition keep_open (closed : Chan -> bool) (s : N * list Chan) : bool := negb (forallb closed (snd s)).
(* 520-528: the sender of a subscriber used for a peer; None is the panic of
   [key % 0] or of the index *)
Definition pick (senders : list Chan) (p : peer) : option Chan :=
  if blen senders =? 1 then nth_error senders 0
  else if blen senders =? 0 then None
  else nth_error senders (N.to_nat (hash (fst p) mod blen senders)).
(* 519-545 with send_to_subscriber 414-487, one subscriber *)
Definition offer (takes : Chan -> bool) (p : peer) (k : Pk) (s : N * list Chan) : out :=
  match pick (snd s) p with
  | None => OPanic
  | Some c => if takes c then OSent (fst s) c p k else ODropped (fst s) c p k
  end.
Definition is_panic (o : out) : bool := match o with OPanic => true | _ => false end.
(* 493-494: entry(peer).or_default().current_count += 1 *)
Definition note_use (now : N) (p : peer) (u : list (peer * usage)) : list (peer * usage) :=
  match mget peer_eqb p u with
  | Some (t, n) => mset peer_eqb p (t, n + 1) u
  | None => mset peer_eqb p (now, 1) u
  end.
(* 491-546 *)
Definition handle_decoded (now : N) (p : peer) (k : Pk) (closed takes : Chan -> bool) (s : actor) : actor * list out :=
  let subs := filter (keep_open closed) (a_subs s) in
  let outs := map (offer takes p k) subs in
  (mkActor (a_next s) subs (note_use now p (a_usage s)) (a_clients s) (negb (existsb is_panic outs)), outs).
(* 342-411 decode_pkt, then handle_decoded_pkt *)
Definition handle_packet (now : N) (p : peer) (b : list N) (closed takes : Chan -> bool) (s : actor) : actor * list out :=
  let c := match mget peer_eqb p (a_clients s) with Some c => c | None => fresh end in
  let '(c', r) := dec c b in
  let s' := mkActor (a_next s) (a_subs s) (a_usage s) (mset peer_eqb p c' (a_clients s)) true in
  match r with
  | None => (s', [OIgnored p])
  | Some k => let '(s'', outs) := handle_decoded now p k closed takes s' in (s'', ODecoded p k :: outs)
  end.
(* 557-597; the id is a u32 whose addition wraps in a release build and
   panics, at the 2^32-1st subscription, in a debug build *)
Definition handle_subscribe (senders : list Chan) (heard : bool) (s : actor) : actor * list out :=
  let id := a_next s in
  let subs := mset N.eqb id senders (a_subs s) in
  if heard then (mkActor (as_u32 (id + 1)) subs (a_usage s) (a_clients s) true, [OSubscribed id])
  else (mkActor (as_u32 (id + 1)) (mrem N.eqb id subs) (a_usage s) (a_clients s) true, []).
(* 599-637 *)
Definition handle_unsubscribe (id : N) (s : actor) : actor * list out :=
  (mkActor (a_next s) (mrem N.eqb id (a_subs s)) (a_usage s) (a_clients s) true,
   if mhas N.eqb id (a_subs s) then [OUnsubscribed id] else []).
(* 639-662 *)
Definition handle_purge_peer (p : peer) (s : actor) : actor * list out :=
  if mhas peer_eqb p (a_clients s)
  then (mkActor (a_next s) (a_subs s) (mrem peer_eqb p (a_usage s)) (mrem peer_eqb p (a_clients s)) true, [OPurged p true])
  else (s, [OPurged p false]).
(* 664-706: [idle] entries go, busy ones start a new period *)
Definition idle (now dur : N) (e : peer * usage) : bool := (dur <? now - fst (snd e)) && (snd (snd e) =? 0).
Definition renew (now dur : N) (e : peer * usage) : peer * usage :=
  if (dur <? now - fst (snd e)) && (0 <? snd (snd e)) then (fst e, (now, 0)) else e.
Definition handle_purge_unused (now dur : N) (s : actor) : actor * list out :=
  (mkActor (a_next s) (a_subs s) (map (renew now dur) (filter (fun e => negb (idle now dur e)) (a_usage s))) (a_clients s) true,
   [OCleared (map fst (filter (idle now dur) (a_usage s)))]).
Definition stop (s : actor) : actor := mkActor (a_next s) (a_subs s) (a_usage s) (a_clients s) false.
(* handle_cmd 780-815 and the loop 818-877 *)
Definition step (s : actor) (e : event) : actor * list out :=
  if a_run s then
    match e with
    | EvPacket now p b closed takes => handle_packet now p b closed takes s
    | EvSubscribe senders heard => handle_subscribe senders heard s
    | EvUnsubscribe id => handle_unsubscribe id s
    | EvPurgePeer p => handle_purge_peer p s
    | EvPurgeUnused now dur => handle_purge_unused now dur s
    | EvGetPeers => (s, [OPeers (mkeys (a_clients s))])          (* 718-729 *)
    | EvGetTemplates p => (s, [OTemplates p (mget peer_eqb p (a_clients s))])  (* 731-778 *)
    | EvShutdown => (stop s, [OStopped])                          (* 548-555 *)
    | EvCmdClosed => (stop s, [OStopped])                         (* 803-811 *)
    end
  else (s, []).
(* a run: each event with what came out of it *)
Fixpoint run (s : actor) (evs : list event) : actor * list (event * list out) :=
  match evs with
  | [] => (s, [])
  | e :: evs' => let '(s1, o) := step s e in let '(s2, tr) := run s1 evs' in (s2, (e, o) :: tr)
  end.
Definition outputs (tr : list (event * list out)) : list out := concat (map snd tr).
End Actor.
Arguments actor : clear implicits.
Arguments event : clear implicits.
Arguments out : clear implicits.
