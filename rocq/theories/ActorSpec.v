(* Vocabulary for the properties of the collector actors. *)
From Verif Require Import Base MapLib ActorModel.

Section Spec.
Context {C Pk Chan : Type}.

(* ---- C37 ---- *)
(* the part of a history that is about peer p *)
Definition concerns (p : peer) (e : event Chan) : bool :=
  match e with
  | EvPacket _ q _ _ _ | EvPurgePeer q | EvGetTemplates q => peer_eqb p q
  | EvShutdown | EvCmdClosed => true
  | _ => false
  end.
(* what can be seen of the decoding of p's packets *)
Definition about (p : peer) (o : out C Pk Chan) : bool :=
  match o with
  | ODecoded q _ | OIgnored q | OTemplates q _ => peer_eqb p q
  | _ => false
  end.

(* a decoder of its own, fed with the datagrams of p one after the other: it is
   new for the first datagram and for the first one after a purge of p *)
Section Own.
Context (fresh : C) (dec : C -> list N -> C * option Pk) (p : peer).
Fixpoint own_decoder (c : option C) (evs : list (event Chan)) : list (out C Pk Chan) :=
  match evs with
  | [] => []
  | EvPacket _ q b _ _ :: evs' =>
    if peer_eqb p q then
      let (c', k) := dec (match c with Some c => c | None => fresh end) b in
      (match k with Some k => ODecoded p k | None => OIgnored p end) :: own_decoder (Some c') evs'
    else own_decoder c evs'
  | EvPurgePeer q :: evs' => own_decoder (if peer_eqb p q then None else c) evs'
  | EvGetTemplates q :: evs' => if peer_eqb p q then OTemplates p c :: own_decoder c evs' else own_decoder c evs'
  | (EvShutdown | EvCmdClosed) :: _ => []
  | _ :: evs' => own_decoder c evs'
  end.
End Own.

(* ---- C38 ---- *)
(* p is reported as cleared by output o *)
Definition clears (p : peer) (o : out C Pk Chan) : Prop := exists ps, o = OCleared ps /\ In p ps.
(* a packet of p was decoded at time t *)
Definition decoded_at (p : peer) (t : N) (tr : list (event Chan * list (out C Pk Chan))) : Prop :=
  exists b closed takes os k, In (EvPacket t p b closed takes, os) tr /\ In (ODecoded p k) os.
(* the clock never runs backwards over a history *)
Definition time_of (e : event Chan) : option N :=
  match e with EvPacket t _ _ _ _ | EvPurgeUnused t _ => Some t | _ => None end.
Fixpoint clock_ok (t : N) (evs : list (event Chan)) : Prop :=
  match evs with
  | [] => True
  | e :: evs' => match time_of e with Some t' => (t <= t')%N /\ clock_ok t' evs' | None => clock_ok t evs' end
  end.

(* ---- C39 ---- *)
Definition is_subscribe (e : event Chan) : bool := match e with EvSubscribe _ _ => true | _ => false end.
Definition ends (e : event Chan) : bool := match e with EvShutdown | EvCmdClosed => true | _ => false end.
Definition subscriptions (evs : list (event Chan)) : N := blen (filter is_subscribe evs).
(* what is handed to subscriber id *)
Definition handed (id : N) (outs : list (out C Pk Chan)) : list (Chan * peer * Pk) :=
  flat_map (fun o => match o with OSent i c p k => if N.eqb i id then [(c, p, k)] else [] | _ => [] end) outs.
Definition new_ids (outs : list (out C Pk Chan)) : list N :=
  flat_map (fun o => match o with OSubscribed i => [i] | _ => [] end) outs.
(* the packets a history decodes, each with the state of the channels then *)
Definition packets (tr : list (event Chan * list (out C Pk Chan))) : list ((Chan -> bool) * (Chan -> bool) * peer * Pk) :=
  flat_map (fun eo => match fst eo with
    | EvPacket _ _ _ closed takes => flat_map (fun o => match o with ODecoded p k => [(closed, takes, p, k)] | _ => [] end) (snd eo)
    | _ => []
    end) tr.
(* the channel that serves peer p among those of a subscriber: the only one,
   or the one the address hash selects *)
Definition serving (hash : N -> N) (senders : list Chan) (p : peer) : option Chan :=
  match senders with
  | [] => None
  | [c] => Some c
  | _ => nth_error senders (N.to_nat (hash (fst p) mod N.of_nat (length senders)))
  end.
(* what a subscriber with these senders should be handed of these packets: each
   packet once, in order, unless the channel does not take it *)
Definition due (hash : N -> N) (senders : list Chan) (ks : list ((Chan -> bool) * (Chan -> bool) * peer * Pk)) : list (Chan * peer * Pk) :=
  flat_map (fun x : (Chan -> bool) * (Chan -> bool) * peer * Pk => let '(_, takes, p, k) := x in
    match serving hash senders p with
    | Some c => if takes c then [(c, p, k)] else []
    | None => []
    end) ks.
End Spec.
