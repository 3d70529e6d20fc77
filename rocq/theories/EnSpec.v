(* Vocabulary for the properties of the enrichment cache. *)
From Verif Require Import Base MapLib EnModel.
From Coq Require Import Permutation.

(* the field a reference (IE, index) denotes in a list of fields *)
Definition occurrence (fs : list field) (r : fref) : option field :=
  nth_error (filter (fun f => ie_of f =? fst r) fs) (N.to_nat (snd r)).

(* what the cache holds for a peer, an observation domain (0 being all), a
   scope and a field reference: weight and value *)
Definition stored (c : cache) (ip dom : N) (scope : list field) (r : fref) : option weighted :=
  match mget N.eqb ip c with
  | None => None
  | Some pm =>
    match (if dom =? 0 then Some (m_global pm) else mget N.eqb dom (m_domains pm)) with
    | None => None
    | Some m => match mget key_eqb (index_fields scope) m with None => None | Some fm => mget nn_eqb r fm end
    end
  end.

(* ---- C32, C33: what one operation may do to one slot ---- *)
Definition addresses (ip dom : N) (scope : list field) (o : op) : Prop :=
  match o with
  | Upsert ip' dom' scope' _ _ | Delete ip' dom' scope' _ _ | DeleteAll ip' dom' scope' _ => ip' = ip /\ dom' = dom /\ scope' = scope
  end.
(* the operation sets field r of its scope to f, with weight w *)
Definition writes (r : fref) (o : op) (w : N) (f : field) : Prop :=
  match o with Upsert _ _ _ w' fs => w' = w /\ occurrence fs r = Some f | _ => False end.
(* the operation deletes field r of its scope up to weight w *)
Definition erases (r : fref) (o : op) (w : N) : Prop :=
  match o with Delete _ _ _ w' ies => w' = w /\ In (fst r) ies | DeleteAll _ _ _ w' => w' = w | Upsert _ _ _ _ _ => False end.
(* the slot before and after an operation that addresses its scope *)
Inductive slot_after (r : fref) (o : op) : option weighted -> option weighted -> Prop :=
  | SA_write_empty w f : writes r o w f -> slot_after r o None (Some (w, f))
  | SA_write_over w f w0 f0 : writes r o w f -> w0 <= w -> slot_after r o (Some (w0, f0)) (Some (w, f))
  | SA_write_low w f w0 f0 : writes r o w f -> w < w0 -> slot_after r o (Some (w0, f0)) (Some (w0, f0))
  | SA_erase w w0 f0 : erases r o w -> w0 <= w -> slot_after r o (Some (w0, f0)) None
  | SA_erase_low w w0 f0 : erases r o w -> w < w0 -> slot_after r o (Some (w0, f0)) (Some (w0, f0))
  | SA_none cur : (forall w f, ~ writes r o w f) -> (forall w, ~ erases r o w) -> slot_after r o cur cur
  | SA_erase_empty w : erases r o w -> slot_after r o None None.
(* the values a history of upserts offers for a slot, in order *)
Definition scope_eqb (a b : list field) : bool := list_eqb nn_eqb a b.
Definition offers (ip dom : N) (scope : list field) (r : fref) (ops : list op) : list weighted :=
  flat_map (fun o => match o with
    | Upsert ip' dom' scope' w fs =>
      if (ip' =? ip) && (dom' =? dom) && scope_eqb scope' scope
      then match occurrence fs r with Some f => [(w, f)] | None => [] end else []
    | _ => []
    end) ops.
Definition is_upsert (o : op) : Prop := match o with Upsert _ _ _ _ _ => True | _ => False end.
(* no empty container anywhere *)
Definition tidy (c : cache) : Prop :=
  Forall (fun e : N * meta =>
    (m_global (snd e) <> [] \/ m_domains (snd e) <> []) /\
    Forall (fun x : key * fmap => snd x <> []) (m_global (snd e)) /\
    Forall (fun d : N * smap => snd d <> [] /\ Forall (fun x : key * fmap => snd x <> []) (snd d)) (m_domains (snd e))) c.

(* ---- C34 ---- *)
(* a scope matches a record that has all its fields *)
Definition scope_matches (scope fs : list field) : Prop :=
  forall r f, occurrence scope r = Some f -> occurrence fs r = Some f.
(* the scope stored for domain d (0: all domains) applies to records of dom *)
Definition applies (dom d : N) : Prop := d = 0 \/ d = dom.
(* processing order of scopes: all-domain ones first, then by scope fields *)
Definition before (d1 : N) (s1 : list field) (d2 : N) (s2 : list field) : Prop :=
  (d1 = 0 /\ d2 <> 0) \/ (d1 = d2 /\ key_cmp (index_fields s1) (index_fields s2) = Lt).
(* (w, f) is what the record should get for r *)
Definition best (c : cache) (ip dom : N) (fs : list field) (r : fref) (w : N) (f : field) : Prop :=
  exists d scope, applies dom d /\ scope_matches scope fs /\ stored c ip d scope r = Some (w, f) /\
  forall d' scope' w' f', applies dom d' -> scope_matches scope' fs -> stored c ip d' scope' r = Some (w', f') ->
    w' < w \/ (w' = w /\ ((d', scope') = (d, scope) \/ before d' scope' d scope)).
(* the same cache content with hash maps in another order *)
Definition reordered (m m' : smap) : Prop := Forall2 (fun a b => fst a = fst b /\ Permutation (snd a) (snd b)) m m'.
Definition same_meta (a b : meta) : Prop :=
  reordered (m_global a) (m_global b) /\
  exists ds, Permutation (m_domains a) ds /\ Forall2 (fun x y => fst x = fst y /\ reordered (snd x) (snd y)) ds (m_domains b).
