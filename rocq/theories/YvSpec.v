(* Vocabulary for the validation actor's properties, in terms of the packets
   and cache responses that reach it and of what it sends on. *)
From Coq Require Import List NArith Bool Arith.
Import ListNotations.
From Verif Require Import YvModel.

Definition packets (evs : list event) : list msg :=
  flat_map (fun e => match e with Packet m => [m] | Response _ => [] end) evs.

Definition responses (evs : list event) : list resp :=
  flat_map (fun e => match e with Packet _ => [] | Response q => [q] end) evs.

(* The subscription id a packet names, if it can be read. *)
Definition names (m : msg) : option N :=
  match m_body m with
  | Undecodable | NoContents => None
  | Started id _ | Ended id | Data id => Some id
  end.

(* [m] belongs to subscription [id] of peer [ip]. *)
Definition of_sub (ip id : N) (m : msg) : Prop :=
  m_ip m = ip /\ names m = Some id.

(* [m] is the announcement (subscription-started or -modified) of [i]. *)
Definition announces (m : msg) (i : info) : Prop :=
  m_ip m = i_ip i /\ m_body m = Started (i_id i) (Some (i_cid i, i_rest i)).

(* An announcement without a module version. *)
Definition unversioned (m : msg) : Prop :=
  exists id, m_body m = Started id None.

Definition about (ip id : N) (q : resp) : Prop :=
  i_ip (q_info q) = ip /\ i_id (q_info q) = id.

(* Packets held while waiting for the cache: all of them, those of a peer,
   those of one subscription. *)
Definition held (s : st) : list msg :=
  flat_map (fun x => e_held (snd x)) (v_map s).

Definition held_peer (ip : N) (s : st) : list msg :=
  flat_map (fun x : N * N * entry =>
              if (fst (fst x) =? ip)%N then e_held (snd x) else [])
    (v_map s).

Definition held_sub (ip id : N) (s : st) : list msg :=
  flat_map (fun x : N * N * entry =>
              if (fst (fst x) =? ip)%N && (snd (fst x) =? id)%N
              then e_held (snd x) else []) (v_map s).

(* Subscriptions the actor has a record of. *)
Definition tracked (s : st) : list (N * N) := map fst (v_map s).

Definition sent (s : st) : list msg := map o_msg (v_out s).

(* Everything that concerns one peer. *)
Definition concerns (ip : N) (e : event) : bool :=
  match e with
  | Packet m => (m_ip m =? ip)%N
  | Response q => (i_ip (q_info q) =? ip)%N
  end.

Definition out_of (ip : N) (s : st) : list output :=
  filter (fun o => (m_ip (o_msg o) =? ip)%N) (v_out s).

(* A router that announces every subscription before using it, always with
   the same description, and a cache that answers with that description. *)
Definition orderly (D : N -> N -> info) (evs : list event) : Prop :=
  (forall a i, In a (packets evs) -> announces a i -> i = D (i_ip i) (i_id i)) /\
  (forall q, In q (responses evs) ->
     q_info q = D (i_ip (q_info q)) (i_id (q_info q))) /\
  (forall pre m post id, evs = pre ++ Packet m :: post -> names m = Some id ->
     (exists i, announces m i) \/
     (exists m', In m' (packets pre) /\ of_sub (m_ip m) id m')).
