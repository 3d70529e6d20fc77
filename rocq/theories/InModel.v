(* The other inputs of enrichment: options data records
   (crates/collector/src/inputs/flow_options), Sonata inventory messages
   (inputs/kafka/handlers.rs), and the label cache of YANG-Push enrichment
   (yang_push/enrichment.rs).
   Fields are those of EnModel: an information element and a value. An element
   with an enterprise number has that number in the upper half. A value keeps
   its number when it moves to an element of the same type, as names and
   identifiers do here. *)
From Verif Require Import Base MapLib EnModel.

(* flow-pkt/registry: the elements named in normalize.rs *)
Definition IE_ingressInterface : N := 10.
Definition IE_egressInterface : N := 14.
Definition IE_samplingInterval : N := 34.
Definition IE_samplerRandomInterval : N := 50.
Definition IE_interfaceName : N := 82.
Definition IE_interfaceDescription : N := 83.
Definition IE_mplsVpnRouteDistinguisher : N := 90.
Definition IE_lineCardId : N := 141.
Definition IE_exportingProcessId : N := 144.
Definition IE_paddingOctets : N := 210.
Definition IE_ingressVRFID : N := 234.
Definition IE_egressVRFID : N := 235.
Definition IE_VRFname : N := 236.
Definition IE_samplingPacketInterval : N := 305.
Definition IE_samplingPacketSpace : N := 306.
Definition IE_samplingTimeInterval : N := 307.
Definition IE_samplingTimeSpace : N := 308.
Definition IE_samplingSize : N := 309.
Definition IE_samplingPopulation : N := 310.
Definition IE_samplingProbability : N := 311.
(* flow-pkt/registry/netgauze.xml, enterprise number 3746 *)
Definition IE_nodeId : N := 3746 * 65536 + 5.
Definition IE_platformId : N := 3746 * 65536 + 6.
Definition IE_ingressInterfaceName : N := 3746 * 65536 + 8.
Definition IE_egressInterfaceName : N := 3746 * 65536 + 9.
Definition IE_ingressInterfaceDescription : N := 3746 * 65536 + 10.
Definition IE_egressInterfaceDescription : N := 3746 * 65536 + 11.
Definition IE_ingressVRFname : N := 3746 * 65536 + 12.
Definition IE_egressVRFname : N := 3746 * 65536 + 13.
Definition IE_ingressMplsVpnRD : N := 3746 * 65536 + 14.
Definition IE_egressMplsVpnRD : N := 3746 * 65536 + 15.

(* types.rs:145-149, 162-174, 214-232: contains_ie and get_by_ie. Index 0 is the
   first field of an element, so the fallback over all indices finds nothing
   more. *)
Definition has_ie (ie : N) (fs : list field) : bool := existsb (fun f => ie_of f =? ie) fs.
Definition get_ie (ie : N) (fs : list field) : option N :=
  match find (fun f => ie_of f =? ie) fs with Some f => Some (snd f) | None => None end.
(* an IndexedDataRecord (types.rs:180-212) is the two field lists it was built
   from *)
Definition rec_has (ie : N) (r : record) : bool := has_ie ie (fst r) || has_ie ie (snd r).
Definition rec_get (ie : N) (r : record) : option N :=
  match get_ie ie (fst r) with Some v => Some v | None => get_ie ie (snd r) end.

(* normalize.rs:47-54 *)
Inductive options_kind : Type := KSampling | KInterface | KVrf | KUnclassified.
(* 172-189 *)
Definition is_sampling (r : record) : bool :=
  rec_has IE_samplingInterval r || rec_has IE_samplerRandomInterval r ||
  (rec_has IE_samplingPacketInterval r && rec_has IE_samplingPacketSpace r) ||
  (rec_has IE_samplingTimeInterval r && rec_has IE_samplingTimeSpace r) ||
  (rec_has IE_samplingSize r && rec_has IE_samplingPopulation r) ||
  rec_has IE_samplingProbability r.
(* 218-226 *)
Definition is_interface (r : record) : bool :=
  (rec_has IE_ingressInterface r || rec_has IE_egressInterface r) &&
  (rec_has IE_interfaceName r || rec_has IE_interfaceDescription r).
(* 347-354 *)
Definition is_vrf (r : record) : bool :=
  (rec_has IE_ingressVRFID r || rec_has IE_egressVRFID r) &&
  (rec_has IE_VRFname r || rec_has IE_mplsVpnRouteDistinguisher r).
(* 156-169 *)
Definition classify (r : record) : options_kind :=
  if is_sampling r then KSampling
  else if is_interface r then KInterface
  else if is_vrf r then KVrf
  else KUnclassified.

Definition not_among (ies : list N) (f : field) : bool := negb (existsb (N.eqb (ie_of f)) ies).

Section Options.
(* the order in which a hash map, built by inserting these entries in this
   order, is traversed *)
Variable traverse : list (fref * field) -> list (fref * field).
(* values() / into_values() of FieldRef::map_fields_into_fxhashmap_owned *)
Definition values (fs : list field) : list field := map snd (traverse (index_fields fs)).

(* 192-215 and 463-483 (the same code) *)
Definition normalize_plain (r : record) : record :=
  (filter (not_among [IE_paddingOctets; IE_exportingProcessId]) (values (fst r)),
   filter (not_among [IE_paddingOctets]) (values (snd r))).
(* 230-272 create_interface_record and 357-399 create_vrf_record: the identifier
   element with its value, the two pieces of information, and the elements they
   become *)
Definition create_record (id : field) (add_scope : list field) (a b : option N) (to_a to_b : N) : list record :=
  let fs := match a with Some v => [(to_a, v)] | None => [] end ++ match b with Some v => [(to_b, v)] | None => [] end in
  match fs with [] => [] | _ => [(id :: add_scope, fs)] end.
(* 283-344 normalize_interface_type and 407-460 normalize_vrf_type, which are
   the same code for other elements; None is an error *)
Definition normalize_mapping (ie_in ie_out ie_a ie_b in_a in_b out_a out_b : N) (r : record) : option (list record) :=
  let add_scope := filter (not_among [ie_in; ie_out; IE_paddingOctets; IE_exportingProcessId]) (values (fst r)) in
  let a := get_ie ie_a (snd r) in
  let b := get_ie ie_b (snd r) in
  let on_in i := create_record (ie_in, i) add_scope a b in_a in_b in
  let on_out i := create_record (ie_out, i) add_scope a b out_a out_b in
  match match rec_get ie_in r, rec_get ie_out r with
        | Some i, Some o => if i =? o then Some (on_in i ++ on_out o) else None
        | Some i, None => Some (on_in i)
        | None, Some o => Some (on_out o)
        | None, None => None
        end with
  | Some [] => None
  | x => x
  end.
Definition normalize_interface : record -> option (list record) :=
  normalize_mapping IE_ingressInterface IE_egressInterface IE_interfaceName IE_interfaceDescription
    IE_ingressInterfaceName IE_ingressInterfaceDescription IE_egressInterfaceName IE_egressInterfaceDescription.
Definition normalize_vrf : record -> option (list record) :=
  normalize_mapping IE_ingressVRFID IE_egressVRFID IE_VRFname IE_mplsVpnRouteDistinguisher
    IE_ingressVRFname IE_ingressMplsVpnRD IE_egressVRFname IE_egressMplsVpnRD.
(* 486-495 *)
Definition normalize (r : record) : option (list record) :=
  match classify r with
  | KSampling | KUnclassified => Some [normalize_plain r]
  | KInterface => normalize_interface r
  | KVrf => normalize_vrf r
  end.

(* flow_options/handlers.rs:79-94 upsert_from_rec, 53-75 handle_option_record:
   operations without fields are dropped; None is an error *)
Definition upsert_from (ip dom w : N) (r : record) : op := Upsert ip dom (values (fst r)) w (values (snd r)).
Definition validate (o : op) : bool :=
  match o with Upsert _ _ _ _ fs => negb (is_nil fs) | Delete _ _ _ _ ies => negb (is_nil ies) | DeleteAll _ _ _ _ => true end.
Definition handle_option_record (ip dom w : N) (r : record) : option (list op) :=
  match normalize r with
  | None => None
  | Some rs => Some (filter validate (map (upsert_from ip dom w) rs))
  end.

(* netflow::ScopeField (flow-pkt/src/netflow.rs) *)
Inductive nscope : Type := NSystem | NInterface (i : N) | NLineCard (n : N) | NCache | NTemplate | NUnknown.
(* normalize.rs:94-140: None is an error *)
Fixpoint convert_scope (l : list nscope) : option (list field) :=
  match l with
  | [] => Some []
  | s :: l' =>
    match match s with
          | NSystem => Some []
          | NInterface i => Some [(IE_ingressInterface, i); (IE_egressInterface, i)]
          | NLineCard n => Some [(IE_lineCardId, n)]
          | NCache | NTemplate | NUnknown => None
          end with
    | None => None
    | Some fs => match convert_scope l' with Some gs => Some (fs ++ gs) | None => None end
    end
  end.
(* a data record of an IPFIX or of a NetFlow v9 packet *)
Inductive orecord : Type := OIpfix (scope fs : list field) | ONetflow (scope : list nscope) (fs : list field).
(* actor.rs:242-270, 284-320: what is sent for one data record; records without scope
   fields and those in error are skipped *)
Definition record_ops (ip dom w : N) (r : orecord) : list op :=
  match r with
  | OIpfix scope fs =>
    if is_nil scope then [] else match handle_option_record ip dom w (scope, fs) with Some ops => ops | None => [] end
  | ONetflow scope fs =>
    if is_nil scope then []
    else match convert_scope scope with
         | None => []
         | Some sc => match handle_option_record ip dom w (sc, fs) with Some ops => ops | None => [] end
         end
  end.
(* a received packet: exporter, observation domain (source) id, and the records
   of its data sets in order *)
Record opacket : Type := mkPkt { k_ip : N; k_dom : N; k_records : list orecord }.
(* actor.rs:217-325 *)
Definition packet_ops (w : N) (p : opacket) : list op := flat_map (record_ops (k_ip p) (k_dom p) w) (k_records p).
Definition options_ops (w : N) (ps : list opacket) : list op := flat_map (packet_ops w) ps.
End Options.

(* ---- Sonata ---- *)
(* formats/sonata.rs:21-47; host and platform names are numbers *)
Record snode : Type := mkNode { n_host : N; n_loop : N; n_plat : N }.
(* a Kafka message: insert and update are handled alike; a message that is not
   such JSON is SBad *)
Inductive smsg : Type := SPut (id : N) (node : option snode) | SDel (id : N) | SBad.
(* what the handler asks for: remove what is known of an address, set it *)
Inductive sact : Type := AForget (ip : N) | ASet (ip host plat : N).
(* kafka/handlers.rs:223-312 and 316-401, which are the same code for the two
   kinds of operation: new id_cache, and what to send *)
Definition sonata_step (ids : list (N * N)) (m : smsg) : list (N * N) * list sact :=
  match m with
  | SPut id (Some n) =>
    (mset N.eqb id (n_loop n) ids,
     match mget N.eqb id ids with Some old => if n_loop n =? old then [] else [AForget old] | None => [] end ++
     [ASet (n_loop n) (n_host n) (n_plat n)])
  | SPut _ None => (ids, [])
  | SDel id => match mget N.eqb id ids with Some old => (mrem N.eqb id ids, [AForget old]) | None => (ids, []) end
  | SBad => (ids, [])
  end.
(* 249-259, 272-279, 296-305: for flows *)
Definition flow_op (w : N) (a : sact) : op :=
  match a with
  | AForget ip => Delete ip 0 [] w [IE_nodeId; IE_platformId]
  | ASet ip h p => Upsert ip 0 [] w [(IE_nodeId, h); (IE_platformId, p)]
  end.

(* ---- YANG-Push labels ---- *)
(* a label: its name and its value *)
Definition label : Type := (N * N)%type.
Definition lmap : Type := list (N * (N * label)).
(* yang_push/enrichment.rs:161 *)
Definition lcache : Type := list (N * lmap).
(* yang_push/mod.rs:40-128 *)
Inductive lop : Type :=
  | LUpsert (ip w : N) (ls : list label)
  | LDelete (ip w : N) (names : list N)
  | LDeleteAll (ip w : N).
(* enrichment.rs:227-263 *)
Definition put_label (w : N) (m : lmap) (l : label) : lmap :=
  match mget N.eqb (fst l) m with
  | Some (w0, _) => if w0 <=? w then mset N.eqb (fst l) (w, l) m else m
  | None => mset N.eqb (fst l) (w, l) m
  end.
(* 280-300 *)
Definition del_label (w : N) (m : lmap) (name : N) : lmap :=
  match mget N.eqb name m with
  | Some (w0, _) => if w0 <=? w then mrem N.eqb name m else m
  | None => m
  end.
(* 303-307, 318-325 *)
Definition tidy_up (ip : N) (m : lmap) (c : lcache) : lcache :=
  if is_nil m then mrem N.eqb ip c else mset N.eqb ip m c.
(* 205-334 *)
Definition apply_label_op (c : lcache) (o : lop) : lcache :=
  match o with
  | LUpsert ip w ls =>
    if is_nil ls then c
    else mset N.eqb ip (fold_left (put_label w) ls (match mget N.eqb ip c with Some m => m | None => [] end)) c
  | LDelete ip w names =>
    if is_nil names then c
    else match mget N.eqb ip c with
         | Some m => tidy_up ip (fold_left (del_label w) names m) c
         | None => c
         end
  | LDeleteAll ip w =>
    match mget N.eqb ip c with
    | Some m => tidy_up ip (filter (fun e => w <? fst (snd e)) m) c
    | None => c
    end
  end.
Definition apply_label_ops (ops : list lop) : lcache := fold_left apply_label_op ops [].
(* 355-358: the labels of a message of this peer *)
Definition message_labels (c : lcache) (ip : N) : option (list label) :=
  match mget N.eqb ip c with Some m => Some (map snd (mvals m)) | None => None end.
(* kafka/handlers.rs:340-377, 386-396: Sonata messages as labels; name_id and
   name_plat stand for "node_id" and "platform_id" *)
Definition name_node_id : N := 1.
Definition name_platform_id : N := 2.
Definition label_op (w : N) (a : sact) : lop :=
  match a with
  | AForget ip => LDelete ip w [name_node_id; name_platform_id]
  | ASet ip h p => LUpsert ip w [(name_node_id, h); (name_platform_id, p)]
  end.

(* what reaches a cache: a Sonata message, or an operation from elsewhere *)
Inductive feed (O : Type) : Type := FMsg (m : smsg) | FOther (o : O).
Arguments FMsg {O} m.
Arguments FOther {O} o.
Fixpoint feed_ops {O} (mk : sact -> O) (ids : list (N * N)) (fs : list (feed O)) : list O :=
  match fs with
  | [] => []
  | FMsg m :: fs' => let '(ids', acts) := sonata_step ids m in map mk acts ++ feed_ops mk ids' fs'
  | FOther o :: fs' => o :: feed_ops mk ids fs'
  end.
