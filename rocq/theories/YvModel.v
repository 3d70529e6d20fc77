(* The YANG-Push validation actor (crates/yang-push/src/validation/mod.rs).
   It receives UDP-Notif packets, asks the schema cache for the schema of the
   packet's subscription, holds the packet until the answer arrives, validates
   it and sends it on.

   Simplifications: the channel to the next actor and the channel to the cache
   actor stay open (a closed one ends the actor, mod.rs:1037-1090); collector
   address, interface, ports and telemetry tags are left out; the YANG
   library loader and the libyang validator are parameters. *)
From Coq Require Import List NArith Bool Arith.
Import ListNotations.

(* storage.rs:780-839, SubscriptionInfo and its equality: peer address (no
   port), subscription id, router content id and [i_rest] for target, stop
   time, transport, encoding, purpose, update trigger and modules. *)
Record info := mk_info { i_ip : N; i_id : N; i_cid : N; i_rest : N }.

Definition info_eqb (a b : info) : bool :=
  (i_ip a =? i_ip b)%N && (i_id a =? i_id b)%N &&
  (i_cid a =? i_cid b)%N && (i_rest a =? i_rest b)%N.

(* storage.rs:876-900, the content id "EMPTY" is written 0. *)
Definition new_empty (ip id : N) : info := mk_info ip id 0 0.
Definition is_empty (i : info) : bool := (i_cid i =? 0)%N.

(* What decoding a packet's payload yields (mod.rs:520-570 and
   notification_contents): nothing, no notification contents, a
   subscription-started/-modified with its description (None: the module
   version is missing, mod.rs:994-1013), a subscription-terminated, or any
   other notification of a subscription. *)
Inductive body :=
| Undecodable
| NoContents
| Started (id : N) (desc : option (N * N))
| Ended (id : N)
| Data (id : N).

Record msg := mk_msg { m_ip : N; m_body : body; m_pay : N }.

(* cache/actor.rs, CacheResponse: content id, subscription, YANG library. *)
Record resp := mk_resp { q_cid : option N; q_info : info; q_lib : option N }.

(* mod.rs:262-272, CachedSubscription. *)
Record entry := mk_entry {
  e_content : option N; e_info : info; e_ctx : option N; e_held : list msg }.

(* cache/actor.rs, CacheLookupCommand. *)
Inductive ask := ByInfo (i : info) | ById (ip id : N).

Record output := mk_out { o_cid : option N; o_info : info; o_msg : msg }.

(* mod.rs:274-290, ValidationActor: peer_cache as a flat map from (peer
   address, subscription id), what was sent to the next actor and to the
   cache, the counters. [v_dropped] and [v_lost] are ghosts: the packets
   dropped and counted, and the packets removed together with a changed
   subscription. *)
Record st := mk_st {
  v_map : list (N * N * entry);
  v_out : list output;
  v_asks : list ask;
  n_received : nat; n_fail : nat; n_invalid : nat; n_skip : nat;
  n_drop : nat; n_sent : nat; n_drain : nat;
  v_dropped : list msg; v_lost : list msg }.

Definition init : st := mk_st [] [] [] 0 0 0 0 0 0 0 [] [].

Definition with_map (s : st) (m : list (N * N * entry)) : st :=
  mk_st m (v_out s) (v_asks s) (n_received s) (n_fail s) (n_invalid s)
    (n_skip s) (n_drop s) (n_sent s) (n_drain s) (v_dropped s) (v_lost s).

Definition keqb (a b : N * N) : bool := ((fst a =? fst b) && (snd a =? snd b))%N.

Definition lookup (k : N * N) (m : list (N * N * entry)) : option entry :=
  option_map snd (find (fun x => keqb k (fst x)) m).
Definition del (k : N * N) (m : list (N * N * entry)) : list (N * N * entry) :=
  filter (fun x => negb (keqb k (fst x))) m.
Definition put (k : N * N) (e : entry) (m : list (N * N * entry)) :=
  (k, e) :: del k m.

(* mod.rs:418-424, total_cached_packets of one peer. *)
Definition peer_total (ip : N) (m : list (N * N * entry)) : nat :=
  fold_right (fun x n => (if (fst (fst x) =? ip)%N
                          then length (e_held (snd x)) else 0) + n) 0 m.

Section Env.
Variable max_sub max_peer : nat.
Variable load : N -> option N.
Variable valid : N -> msg -> bool.

(* mod.rs:298-325, check_subscription_new. *)
Definition check_new (s : st) (i : info) : st :=
  match lookup (i_ip i, i_id i) (v_map s) with
  | Some e =>
      if info_eqb (e_info e) i then s
      else
        mk_st (del (i_ip i, i_id i) (v_map s)) (v_out s) (v_asks s)
          (n_received s) (n_fail s) (n_invalid s) (n_skip s) (n_drop s)
          (n_sent s) (n_drain s) (v_dropped s) (v_lost s ++ e_held e)
  | None => s
  end.

(* mod.rs:407-482, cache_packet. *)
Definition cache_packet (s : st) (i : info) (m : msg) : st :=
  let k := (m_ip m, i_id i) in
  let total := peer_total (m_ip m) (v_map s) in
  let e := match lookup k (v_map s) with
           | Some e => e
           | None => mk_entry None i None []
           end in
  if (max_sub <? length (e_held e)) || (max_peer <? total) then
    mk_st (put k e (v_map s)) (v_out s) (v_asks s) (n_received s) (n_fail s)
      (n_invalid s) (n_skip s) (S (n_drop s)) (n_sent s) (n_drain s)
      (v_dropped s ++ [m]) (v_lost s)
  else
    with_map s (put k (mk_entry (e_content e) (e_info e) (e_ctx e)
                         (e_held e ++ [m])) (v_map s)).

Definition asked (s : st) (a : ask) : st :=
  mk_st (v_map s) (v_out s) (v_asks s ++ [a]) (n_received s) (n_fail s)
    (n_invalid s) (n_skip s) (n_drop s) (n_sent s) (n_drain s)
    (v_dropped s) (v_lost s).

Definition emit (s : st) (c : option N) (i : info) (m : msg) (sk : nat) : st :=
  mk_st (v_map s) (v_out s ++ [mk_out c i m]) (v_asks s) (n_received s)
    (n_fail s) (n_invalid s) (sk + n_skip s) (n_drop s) (S (n_sent s))
    (n_drain s) (v_dropped s) (v_lost s).

Definition invalid (s : st) (m : msg) : st :=
  mk_st (v_map s) (v_out s) (v_asks s) (n_received s) (n_fail s)
    (S (n_invalid s)) (n_skip s) (n_drop s) (n_sent s) (n_drain s)
    (v_dropped s ++ [m]) (v_lost s).

Definition received (s : st) : st :=
  mk_st (v_map s) (v_out s) (v_asks s) (S (n_received s)) (n_fail s)
    (n_invalid s) (n_skip s) (n_drop s) (n_sent s) (n_drain s)
    (v_dropped s) (v_lost s).

Definition undecoded (s : st) (m : msg) : st :=
  mk_st (v_map s) (v_out s) (v_asks s) (n_received s) (S (n_fail s))
    (n_invalid s) (n_skip s) (n_drop s) (n_sent s) (n_drain s)
    (v_dropped s ++ [m]) (v_lost s).

Definition drained (s : st) : st :=
  mk_st (v_map s) (v_out s) (v_asks s) (n_received s) (n_fail s)
    (n_invalid s) (n_skip s) (n_drop s) (n_sent s) (S (n_drain s))
    (v_dropped s) (v_lost s).

(* mod.rs:598-680, the second half of process_udp_notif_msg; the entry found
   there is the one extract_subscription_info has just seen. *)
Definition deliver (s : st) (e : entry) (m : msg) : st :=
  match e_content e, e_ctx e with
  | Some c, Some x =>
      if is_empty (e_info e) then emit s None (e_info e) m 1
      else if valid x m then emit s (Some c) (e_info e) m 0
      else invalid s m
  | _, _ => emit s None (e_info e) m 1
  end.

(* mod.rs:572-680 process_udp_notif_msg with 327-405 get_subscription_info
   and 773-880 extract_subscription_info. *)
Definition handle (s0 : st) (m : msg) : st :=
  let s := received s0 in
  match m_body m with
  | Undecodable => undecoded s m
  | NoContents => invalid s m
  | Started id (Some (cid, rest)) =>
      let i := mk_info (m_ip m) id cid rest in
      let s1 := check_new s i in
      match lookup (m_ip m, id) (v_map s1) with
      | Some e =>
          if info_eqb (e_info e) i then deliver s1 e m
          else cache_packet (asked s1 (ByInfo i)) i m
      | None => cache_packet (asked s1 (ByInfo i)) i m
      end
  | Started id None =>
      cache_packet (asked s (ById (m_ip m) id)) (new_empty (m_ip m) id) m
  | Ended id | Data id =>
      match lookup (m_ip m, id) (v_map s) with
      | Some e => deliver s e m
      | None =>
          cache_packet (asked s (ById (m_ip m) id)) (new_empty (m_ip m) id) m
      end
  end.

(* mod.rs:882-983, process_cache_response. *)
Definition respond (s : st) (q : resp) : st :=
  let k := (i_ip (q_info q), i_id (q_info q)) in
  match lookup k (v_map s) with
  | None => s
  | Some e =>
      let e' := match q_lib q with
                | Some l => mk_entry (q_cid q) (q_info q) (load l) []
                | None => mk_entry None (q_info q) None []
                end in
      fold_left (fun s m => handle (drained s) m) (e_held e)
        (with_map s (put k e' (v_map s)))
  end.

Inductive event := Packet (m : msg) | Response (q : resp).

Definition step (s : st) (e : event) : st :=
  match e with Packet m => handle s m | Response q => respond s q end.

Definition run (evs : list event) : st := fold_left step evs init.

(* mod.rs:1037-1090, the order in which run serves its two inputs ("biased":
   packets before cache responses). [arrive] adds to the two queues. *)
Record loop := mk_loop { l_rx : list msg; l_cache : list resp; l_st : st }.

Definition tick (l : loop) : loop :=
  match l_rx l with
  | m :: r => mk_loop r (l_cache l) (handle (l_st l) m)
  | [] => match l_cache l with
          | q :: r => mk_loop [] r (respond (l_st l) q)
          | [] => l
          end
  end.

Definition arrive (l : loop) (ms : list msg) (qs : list resp) : loop :=
  mk_loop (l_rx l ++ ms) (l_cache l ++ qs) (l_st l).

(* One round: new arrivals, then one iteration of the loop. *)
Definition rounds (l : loop) (a : list (list msg * list resp)) : loop :=
  fold_left (fun l x => tick (arrive l (fst x) (snd x))) a l.
End Env.

(* The validation actor and the cache actor as two processes joined by two
   bounded channels: requests (cache/actor.rs:1230) and responses
   (mod.rs:1122). Both send with ".await" outside their select: mod.rs:806-826
   and 843-855 while handling a packet, cache/actor.rs:440-478 while answering.
   Each remaining packet is the first one of its subscription and each lookup
   is answered from the cache's table at once. Only the counts matter. *)
Record duo := mk_duo {
  d_rx : nat;        (* packets waiting for the validation actor *)
  d_vsend : bool;    (* validation actor blocked in sending a request *)
  d_req : nat;       (* requests in the channel *)
  d_csend : bool;    (* cache actor blocked in sending a response *)
  d_resp : nat;      (* responses in the channel *)
  d_done : nat }.    (* responses processed *)

Section Duo.
Variable cap_req cap_resp : nat.

Inductive dstep : duo -> duo -> Prop :=
(* mod.rs:1054-1070: packets are served before responses *)
| d_take p r c a n :
    dstep (mk_duo (S p) false r c a n) (mk_duo p true r c a n)
| d_request p r c a n : r < cap_req ->
    dstep (mk_duo p true r c a n) (mk_duo p false (S r) c a n)
| d_response r c a n :
    dstep (mk_duo 0 false r c (S a) n) (mk_duo 0 false r c a (S n))
(* cache/actor.rs:1175-1177 *)
| d_lookup p v r a n :
    dstep (mk_duo p v (S r) false a n) (mk_duo p v r true a n)
| d_answer p v r a n : a < cap_resp ->
    dstep (mk_duo p v r true a n) (mk_duo p v r false (S a) n).

Inductive dsteps : duo -> duo -> Prop :=
| ds_refl d : dsteps d d
| ds_step a b c : dsteps a b -> dstep b c -> dsteps a c.
End Duo.

(* [n] packets of [n] new subscriptions arrive while nothing is in flight. *)
Definition burst (n : nat) : duo := mk_duo n false 0 false 0 0.
