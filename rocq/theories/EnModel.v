(* The flow enrichment cache: crates/collector/src/flow/enrichment/cache.rs,
   field references crates/collector/src/flow/types.rs, and the record part of
   enrichment/actor.rs.
   A field is its information element and its value, both numbers: values of
   all types are represented by their rank in the order derived for Field, and
   an IE by its rank in the order derived for IE. Hash maps are association
   lists in arbitrary order, B-tree maps association lists sorted by key. *)
From Verif Require Import Base MapLib.

Definition field : Type := (N * N)%type.
Definition ie_of (f : field) : N := fst f.
(* types.rs:41-47: FieldRef, IE and index *)
Definition fref : Type := (N * N)%type.
Definition nn_eqb (a b : N * N) : bool := (fst a =? fst b) && (snd a =? snd b).

(* types.rs:82-100 map_fields: the i-th field of an IE gets index i; cnt is
   ie_counters *)
Fixpoint index_from (cnt : list (N * N)) (fs : list field) : list (fref * field) :=
  match fs with
  | [] => []
  | f :: fs' =>
    let n := match mget N.eqb (ie_of f) cnt with Some n => n | None => 0 end in
    ((ie_of f, n), f) :: index_from (mset N.eqb (ie_of f) (n + 1) cnt) fs'
  end.
Definition index_fields (fs : list field) : list (fref * field) := index_from [] fs.

(* cache.rs:340 IndexedScopeFields, with the derived order *)
Definition key : Type := list (fref * field).
Definition nn_cmp (a b : N * N) : comparison :=
  match fst a ?= fst b with Eq => snd a ?= snd b | c => c end.
Definition entry_cmp (a b : fref * field) : comparison :=
  match nn_cmp (fst a) (fst b) with Eq => nn_cmp (snd a) (snd b) | c => c end.
Fixpoint key_cmp (a b : key) : comparison :=
  match a, b with
  | [], [] => Eq
  | [], _ => Lt
  | _, [] => Gt
  | x :: a', y :: b' => match entry_cmp x y with Eq => key_cmp a' b' | c => c end
  end.
Definition key_eqb (a b : key) : bool := match key_cmp a b with Eq => true | _ => false end.

(* WeightedField (cache.rs:379-395) and IndexedMetadata (399) *)
Definition weighted : Type := (N * field)%type.
Definition fmap : Type := list (fref * weighted).
(* BTreeMap<IndexedScopeFields, IndexedMetadata> *)
Definition smap : Type := list (key * fmap).
(* BTreeMap insert *)
Fixpoint bput (k : key) (v : fmap) (m : smap) : smap :=
  match m with
  | [] => [(k, v)]
  | (k', v') :: m' =>
    match key_cmp k k' with
    | Lt => (k, v) :: (k', v') :: m'
    | Eq => (k', v) :: m'
    | Gt => (k', v') :: bput k v m'
    end
  end.
(* PeerMetadata, cache.rs:407-410 *)
Record meta : Type := mkMeta { m_global : smap; m_domains : list (N * smap) }.
Definition meta_new : meta := mkMeta [] [].
(* EnrichmentCache: peers by IP address *)
Definition cache : Type := list (N * meta).

Inductive op : Type :=
  | Upsert (ip dom : N) (scope : list field) (w : N) (fs : list field)
  | Delete (ip dom : N) (scope : list field) (w : N) (ies : list N)
  | DeleteAll (ip dom : N) (scope : list field) (w : N).

(* cache.rs:184-217: an incoming field replaces a stored one of the same or
   lower weight *)
Definition put_field (w : N) (m : fmap) (e : fref * field) : fmap :=
  match mget nn_eqb (fst e) m with
  | Some (w0, _) => if w0 <=? w then mset nn_eqb (fst e) (w, snd e) m else m
  | None => mset nn_eqb (fst e) (w, snd e) m
  end.
(* 182-229 *)
Definition upsert_scope (k : key) (w : N) (inc : list (fref * field)) (m : smap) : smap :=
  match mget key_eqb k m with
  | Some cur => bput k (fold_left (put_field w) inc cur) m
  | None => bput k (map (fun e => (fst e, (w, snd e))) inc) m
  end.
(* 128-232; a scope without fields and one with an empty list are the same key
   (353-363) *)
Definition upsert (ip dom : N) (scope : list field) (w : N) (fs : list field) (c : cache) : cache :=
  match fs with
  | [] => c
  | _ =>
    let inc := index_fields fs in
    let k := index_fields scope in
    let pm := match mget N.eqb ip c with Some pm => pm | None => meta_new end in
    let pm' :=
      if dom =? 0 then mkMeta (upsert_scope k w inc (m_global pm)) (m_domains pm)
      else mkMeta (m_global pm)
             (mset N.eqb dom (upsert_scope k w inc (match mget N.eqb dom (m_domains pm) with Some m => m | None => [] end)) (m_domains pm)) in
    mset N.eqb ip pm' c
  end.

(* 276-291: the fields that stay *)
Definition stays (w : N) (all : bool) (ies : list N) (e : fref * weighted) : bool :=
  negb ((fst (snd e) <=? w) && (all || existsb (N.eqb (fst (fst e))) ies)).
Definition is_nil {A} (l : list A) : bool := match l with [] => true | _ => false end.
(* 239-325; all: scope_delete_all *)
Definition delete (ip dom : N) (scope : list field) (w : N) (all : bool) (ies : list N) (c : cache) : cache :=
  match mget N.eqb ip c with
  | None => c
  | Some pm =>
    let k := index_fields scope in
    let target := if dom =? 0 then Some (m_global pm) else mget N.eqb dom (m_domains pm) in
    match target with
    | None => c
    | Some m =>
      match mget key_eqb k m with
      | None => c
      | Some cur =>
        let cur' := filter (stays w all ies) cur in
        if is_nil cur' then
          let m' := mrem key_eqb k m in
          let pm' :=
            if dom =? 0 then mkMeta m' (m_domains pm)
            else mkMeta (m_global pm) (if is_nil m' then mrem N.eqb dom (m_domains pm) else mset N.eqb dom m' (m_domains pm)) in
          if is_nil (m_global pm') && is_nil (m_domains pm') then mrem N.eqb ip c else mset N.eqb ip pm' c
        else
          let m' := bput k cur' m in
          let pm' := if dom =? 0 then mkMeta m' (m_domains pm) else mkMeta (m_global pm) (mset N.eqb dom m' (m_domains pm)) in
          mset N.eqb ip pm' c
      end
    end
  end.
(* 96-120 *)
Definition apply_op (c : cache) (o : op) : cache :=
  match o with
  | Upsert ip dom scope w fs => upsert ip dom scope w fs c
  | Delete ip dom scope w ies => if is_nil ies then c else delete ip dom scope w false ies c
  | DeleteAll ip dom scope w => delete ip dom scope w true [] c
  end.
Definition apply_ops (ops : list op) : cache := fold_left apply_op ops [].

(* 345-351 matches *)
Definition matches (k : key) (rec : list (fref * field)) : bool :=
  forallb (fun e => match mget nn_eqb (fst e) rec with Some f => nn_eqb (snd e) f | None => false end) k.
(* 500-528 merge_fields, one entry and a whole map *)
Definition merge_one (best : fmap) (e : fref * weighted) : fmap :=
  match mget nn_eqb (fst e) best with
  | Some (w0, _) => if w0 <=? fst (snd e) then mset nn_eqb (fst e) (snd e) best else best
  | None => mset nn_eqb (fst e) (snd e) best
  end.
Definition merge (best : fmap) (m : fmap) : fmap := fold_left merge_one m best.
Definition merge_scopes (rec : list (fref * field)) (m : smap) (best : fmap) : fmap :=
  fold_left (fun b e => if matches (fst e) rec then merge b (snd e) else b) m best.
(* 437-496 *)
Definition selected (pm : meta) (dom : N) (fs : list field) : fmap :=
  let rec := index_fields fs in
  let b := merge_scopes rec (m_global pm) [] in
  match mget N.eqb dom (m_domains pm) with Some m => merge_scopes rec m b | None => b end.
Definition meta_fields (pm : meta) (dom : N) (fs : list field) : option (list field) :=
  if is_nil (m_global pm) && is_nil (m_domains pm) then None
  else let b := selected pm dom fs in
       if is_nil b then None else Some (map snd (mvals b)).
(* 83-93 *)
Definition enrichment_fields (c : cache) (ip dom : N) (fs : list field) : option (list field) :=
  match mget N.eqb ip c with Some pm => meta_fields pm dom fs | None => None end.

(* A data record is its scope fields and its fields; a set is Data or a
   (options) template set (flow-pkt/src/ipfix.rs:207-230, 420-456) *)
Definition record : Type := (list field * list field)%type.
Inductive set : Type := SData (id : N) (records : list record) | STemplates.
(* enrichment/actor.rs:140-153 *)
Definition added_fields (writer : field) (c : cache) (ip dom : N) (fs : list field) : list field :=
  match enrichment_fields c ip dom fs with Some l => l | None => [] end ++ [writer].
(* actor.rs:162-213 enrich_ipfix_packet; 221-269 is the same for NetFlow v9 *)
Definition enrich_set (writer : field) (c : cache) (ip dom : N) (s : set) : list set :=
  match s with
  | SData id records =>
    [SData id (map (fun r : record => (fst r, snd r ++ added_fields writer c ip dom (snd r))) (filter (fun r => is_nil (fst r)) records))]
  | STemplates => []
  end.
Definition enrich_packet (writer : field) (c : cache) (ip dom : N) (sets : list set) : list set :=
  flat_map (enrich_set writer c ip dom) sets.
