(* Flow aggregation: crates/collector/src/flow/aggregation/aggregator.rs, with
   FieldRef from crates/collector/src/flow/types.rs and the generated field
   operations (crates/ipfix-code-generator/src/generator.rs:896-1096).
   A field is its IE and a value: an unsigned number, or octets. Signed and
   floating point values are not modelled, nor are additions to addresses or
   strings, which the configuration rejects (config.rs:231-272). *)
From Verif Require Import Base MapLib.

Inductive value : Type := VNum (n : N) | VBytes (l : list N).
Definition field : Type := (N * value)%type.
Definition value_eqb (a b : value) : bool :=
  match a, b with
  | VNum x, VNum y => x =? y
  | VBytes x, VBytes y => list_eqb N.eqb x y
  | _, _ => false
  end.
Definition fref : Type := (N * N)%type.
Definition fref_eqb : fref -> fref -> bool := pair_eqb N.eqb N.eqb.

(* types.rs:82-100 map_fields *)
Fixpoint index_from (cnt : list (N * N)) (fs : list field) : list (fref * field) :=
  match fs with
  | [] => []
  | f :: fs' =>
    let n := match mget N.eqb (fst f) cnt with Some n => n | None => 0 end in
    ((fst f, n), f) :: index_from (mset N.eqb (fst f) (n + 1) cnt) fs'
  end.
Definition lookup (fs : list field) (r : fref) : option field := mget fref_eqb r (index_from [] fs).

(* config.rs:140-146 AggOp *)
Inductive aggop : Type := Add | Min | Max | BoolMapOr.

Section Agg.
(* width in bits of the unsigned type of an IE *)
Context (bits : N -> N).

(* generator.rs:1041-1090: only the common prefix is combined, the left length
   stays *)
Fixpoint or_bytes (l r : list N) : list N :=
  match l, r with
  | a :: l', b :: r' => N.lor a b :: or_bytes l' r'
  | _, _ => l
  end.
(* add_assign_field, min_assign_field, max_assign_field,
   bitwise_or_assign_field: an operation the types do not support is logged and
   leaves the left value. Addition is that of a release build, which wraps; a
   debug build panics instead. *)
Definition combine (op : aggop) (ie : N) (l r : value) : value :=
  match op, l, r with
  | Add, VNum a, VNum b => VNum ((a + b) mod 2 ^ bits ie)
  | Min, VNum a, VNum b => VNum (N.min a b)
  | Max, VNum a, VNum b => VNum (N.max a b)
  | BoolMapOr, VNum a, VNum b => VNum (N.lor a b)
  | BoolMapOr, VBytes a, VBytes b => VBytes (or_bytes a b)
  | _, _, _ => l
  end.

(* aggregator.rs:121-127 FlowCacheKey; flow_type: true for IPFIX *)
Record ckey : Type := mkKey { k_ip : N; k_ipfix : bool; k_fields : list (option field) }.
Definition ofield_eqb (a b : option field) : bool :=
  match a, b with
  | None, None => true
  | Some x, Some y => pair_eqb N.eqb value_eqb x y
  | _, _ => false
  end.
Definition ckey_eqb (a b : ckey) : bool :=
  (k_ip a =? k_ip b) && Bool.eqb (k_ipfix a) (k_ipfix b) && list_eqb ofield_eqb (k_fields a) (k_fields b).
(* 134-146 FlowCacheRecord; hash sets are lists without order *)
Record crec : Type := mkRec {
  r_ports : list N; r_doms : list N; r_tmpls : list N;
  r_min_exp : N; r_max_exp : N; r_min_col : N; r_max_col : N; r_up : N;
  r_agg : list (option field); r_count : N }.

(* HashSet::extend *)
Definition set_add (l : list N) (x : N) : list N := if existsb (N.eqb x) l then l else l ++ [x].
Definition set_extend (l r : list N) : list N := fold_left set_add r l.

(* 172-196: the loop over agg_select; None is an index out of bounds, which
   panics *)
Fixpoint reduce_fields (sel : list (fref * aggop)) (ls rs : list (option field)) : option (list (option field)) :=
  match sel with
  | [] => Some ls
  | (_, op) :: sel' =>
    match ls, rs with
    | l :: ls', r :: rs' =>
      let x := match l, r with
               | Some lf, Some rf => if fst lf =? fst rf then Some (fst lf, combine op (fst lf) (snd lf) (snd rf)) else Some lf
               | None, Some rf => Some rf
               | _, _ => l
               end in
      match reduce_fields sel' ls' rs' with Some t => Some (x :: t) | None => None end
    | _, _ => None
    end
  end.
(* 159-198 *)
Definition reduce (sel : list (fref * aggop)) (l r : crec) : option crec :=
  match reduce_fields sel (r_agg l) (r_agg r) with
  | None => None
  | Some fs =>
    Some (mkRec (set_extend (r_ports l) (r_ports r)) (set_extend (r_doms l) (r_doms r)) (set_extend (r_tmpls l) (r_tmpls r))
      (N.min (r_min_exp l) (r_min_exp r)) (N.max (r_max_exp l) (r_max_exp r))
      (N.min (r_min_col l) (r_min_col r)) (N.max (r_max_col l) (r_max_col r))
      (N.max (r_up l) (r_up r)) fs (r_count l + r_count r))
  end.
(* 78-90; the cache is an association list in hash order *)
Definition push (sel : list (fref * aggop)) (c : list (ckey * crec)) (i : ckey * crec) : option (list (ckey * crec)) :=
  match mget ckey_eqb (fst i) c with
  | Some r => match reduce sel r (snd i) with Some r' => Some (mset ckey_eqb (fst i) r' c) | None => None end
  | None => Some (mset ckey_eqb (fst i) (snd i) c)
  end.

(* A packet as far as explode looks at it: type, domain, export time, system up
   time (0 for IPFIX), and the data records with their template ids
   (flow-pkt/src/lib.rs:88-115) *)
Record flow : Type := mkFlow { f_ipfix : bool; f_dom : N; f_exp : N; f_up : N; f_records : list (N * list field) }.
Record input : Type := mkInput { i_flow : flow; i_ip : N; i_port : N; i_col : N }.
(* 286-354 *)
Definition explode (keys : list fref) (sel : list (fref * aggop)) (i : input) : list (ckey * crec) :=
  let f := i_flow i in
  map (fun tr : N * list field =>
    (mkKey (i_ip i) (f_ipfix f) (map (lookup (snd tr)) keys),
     mkRec [i_port i] [f_dom f] [fst tr] (f_exp f) (f_exp f) (i_col i) (i_col i)
       (if f_ipfix f then 0 else f_up f) (map (fun s => lookup (snd tr) (fst s)) sel) 1)) (f_records f).
Fixpoint pushes (sel : list (fref * aggop)) (c : list (ckey * crec)) (items : list (ckey * crec)) : option (list (ckey * crec)) :=
  match items with
  | [] => Some c
  | i :: items' => match push sel c i with Some c' => pushes sel c' items' | None => None end
  end.
(* one window: init, every exploded record pushed, flush *)
Definition aggregate (keys : list fref) (sel : list (fref * aggop)) (ins : list input) : option (list (ckey * crec)) :=
  pushes sel [] (flat_map (explode keys sel) ins).

(* 203-277 into_flowinfo_with_extra_fields: the fields of the one record; IE
   numbers 375 originalFlowsPresent, 264 minExportSeconds, 260
   maxExportSeconds, 258 collectionTimeMilliseconds, 405
   originalObservationDomainId; NetGauze IEs are tagged with their own
   numbers, given as p and t. *)
Definition some_list {A} (l : list (option A)) : list A := flat_map (fun x => match x with Some y => [y] | None => [] end) l.
Definition out_fields (port_ie tmpl_ie : N) (extra : list field) (e : ckey * crec) : list field :=
  let '(k, r) := e in
  some_list (k_fields k) ++ some_list (r_agg r) ++
  [(375, VNum (r_count r)); (264, VNum (r_min_exp r)); (260, VNum (r_max_exp r)); (258, VNum (r_max_col r))] ++
  extra ++
  map (fun p => (port_ie, VNum p)) (r_ports r) ++ map (fun d => (405, VNum d)) (r_doms r) ++ map (fun t => (tmpl_ie, VNum t)) (r_tmpls r).
End Agg.
