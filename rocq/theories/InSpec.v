(* Vocabulary for the properties of options records, Sonata messages and
   YANG-Push labels. *)
From Verif Require Import Base MapLib EnModel EnSpec InModel.
From Coq Require Import Permutation.

(* any traversal order of a hash map *)
Definition any_order (traverse : list (fref * field) -> list (fref * field)) : Prop := forall l, Permutation (traverse l) l.

(* ---- what an options record tells ---- *)
Definition present (ie : N) (fs : list field) : Prop := exists v, In (ie, v) fs.
(* the first value of an element *)
Inductive first_value (ie : N) : list field -> N -> Prop :=
  | FV_here v fs : first_value ie ((ie, v) :: fs) v
  | FV_later f fs v : fst f <> ie -> first_value ie fs v -> first_value ie (f :: fs) v.
(* the fields of other elements *)
Definition without (ies : list N) (fs fs' : list field) : Prop :=
  exists keep : field -> bool, (forall f, keep f = true <-> ~ In (fst f) ies) /\ fs' = filter keep fs.
(* samplingInterval, samplerRandomInterval, samplingPacketInterval and -Space,
   samplingTimeInterval and -Space, samplingSize and samplingPopulation, or
   samplingProbability *)
Definition about_sampling (all : list field) : Prop :=
  present 34 all \/ present 50 all \/ (present 305 all /\ present 306 all) \/
  (present 307 all /\ present 308 all) \/ (present 309 all /\ present 310 all) \/ present 311 all.
(* Names of interfaces and of VRFs: the element of the identifier for a
   direction, that of the other direction, and what the two pieces of
   information become for the direction. *)
Record direction : Type := mkDir { own : N; other : N; info1 : N; to1 : N; info2 : N; to2 : N }.
Definition netgauze (n : N) : N := 245497856 + n.
Definition interface_in : direction := mkDir 10 14 82 (netgauze 8) 83 (netgauze 10).
Definition interface_out : direction := mkDir 14 10 82 (netgauze 9) 83 (netgauze 11).
Definition vrf_in : direction := mkDir 234 235 236 (netgauze 12) 90 (netgauze 14).
Definition vrf_out : direction := mkDir 235 234 236 (netgauze 13) 90 (netgauze 15).
Definition about (d : direction) (all : list field) : Prop :=
  (present (own d) all \/ present (other d) all) /\ (present (info1 d) all \/ present (info2 d) all).
(* the record is read as names for direction d *)
Definition names_for (d : direction) (all : list field) : Prop :=
  ~ about_sampling all /\
  (((d = interface_in \/ d = interface_out) /\ about d all) \/
   ((d = vrf_in \/ d = vrf_out) /\ about d all /\ ~ about interface_in all)).
(* an identifier is looked for in the scope first *)
Definition identifier (ie : N) (scope fs : list field) (v : N) : Prop :=
  first_value ie scope v \/ (~ present ie scope /\ first_value ie fs v).
Definition opt_field (from to : N) (fs : list field) (l : list field) : Prop :=
  (exists v, first_value from fs v /\ l = [(to, v)]) \/ (~ present from fs /\ l = []).
(* An options record tells that records with the fields cond have the
   information info (at least one field). Padding and the exporting process do
   not count. *)
Inductive tells (scope fs : list field) : list field -> list field -> Prop :=
  | T_as_is cond info :
      about_sampling (scope ++ fs) \/ (~ about interface_in (scope ++ fs) /\ ~ about vrf_in (scope ++ fs)) ->
      without [210; 144] scope cond -> without [210] fs info -> info <> [] -> tells scope fs cond info
  | T_names d v cond l1 l2 :
      names_for d (scope ++ fs) ->
      identifier (own d) scope fs v -> (forall v', identifier (other d) scope fs v' -> v' = v) ->
      opt_field (info1 d) (to1 d) fs l1 -> opt_field (info2 d) (to2 d) fs l2 -> l1 ++ l2 <> [] ->
      without [own d; other d; 210; 144] scope cond ->
      tells scope fs ((own d, v) :: cond) (l1 ++ l2).
(* refused: names whose two identifiers differ, or which are not among the fields *)
Definition refused (scope fs : list field) : Prop :=
  exists d, names_for d (scope ++ fs) /\
  ((exists v v', identifier (own d) scope fs v /\ identifier (other d) scope fs v' /\ v <> v') \/
   (~ present (info1 d) fs /\ ~ present (info2 d) fs)).
(* an operation that says so for an exporter and a domain *)
Definition op_for (ip dom w : N) (cond info : list field) (o : op) : Prop :=
  exists cond' info', Permutation cond' cond /\ Permutation info' info /\ o = Upsert ip dom cond' w info'.
(* every element once *)
Definition distinct (fs : list field) : Prop := NoDup (map fst fs).
(* the record has all these fields, each being the first of its element *)
Definition carries (fs cond : list field) : Prop := forall ie v, In (ie, v) cond -> first_value ie fs v.
(* options records as they come *)
Definition orecord_is (r : orecord) (scope fs : list field) : Prop :=
  match r with
  | OIpfix s f => s <> [] /\ scope = s /\ fs = f
  | ONetflow s f =>
    s <> [] /\ fs = f /\
    exists parts, scope = concat parts /\
    Forall2 (fun x part => match x with
                           | NSystem => part = []
                           | NInterface i => part = [(10, i); (14, i)]
                           | NLineCard n => part = [(141, n)]
                           | NCache | NTemplate | NUnknown => False
                           end) s parts
  end.

(* ---- Sonata ---- *)
(* what the last message about a node says of it, given what was known before *)
Definition told (was : option snode) (id : N) (m : smsg) : option snode :=
  match m with
  | SPut id' (Some n) => if id' =? id then Some n else was
  | SDel id' => if id' =? id then None else was
  | _ => was
  end.
Definition messages {O} (fs : list (feed O)) : list smsg := flat_map (fun f => match f with FMsg m => [m] | FOther _ => [] end) fs.
Definition inventory (ms : list smsg) (id : N) : option snode := fold_left (fun was m => told was id m) ms None.
(* at no time have two nodes had the same address *)
Definition never_shared (ms : list smsg) : Prop :=
  forall ms1 ms2, ms = ms1 ++ ms2 -> forall i j a b,
    inventory ms1 i = Some a -> inventory ms1 j = Some b -> n_loop a = n_loop b -> i = j.
(* the node that has this address *)
Definition holder (ms : list smsg) (ip : N) (n : snode) : Prop := exists id, inventory ms id = Some n /\ n_loop n = ip.

(* the operation does not touch the name and the platform of a node, which flow
   enrichment keeps in elements 5 and 6, for all domains *)
Definition not_about_nodes (o : op) : Prop :=
  forall ip r, In r [(netgauze 5, 0); (netgauze 6, 0)] -> addresses ip 0 [] o -> (forall w f, ~ writes r o w f) /\ (forall w, ~ erases r o w).
Definition flow_knows (c : cache) (w ip : N) (x : option (N * N)) : Prop :=
  stored c ip 0 [] (netgauze 5, 0) = match x with Some (host, _) => Some (w, (netgauze 5, host)) | None => None end /\
  stored c ip 0 [] (netgauze 6, 0) = match x with Some (_, plat) => Some (w, (netgauze 6, plat)) | None => None end.

(* ---- labels ---- *)
Definition lstored (c : lcache) (ip name : N) : option (N * label) :=
  match mget N.eqb ip c with Some m => mget N.eqb name m | None => None end.
Definition l_ip (o : lop) : N := match o with LUpsert ip _ _ | LDelete ip _ _ | LDeleteAll ip _ => ip end.
(* the operation sets label name, with weight w, to l: the last label of that
   name in it *)
Definition lwrites (name : N) (o : lop) (w : N) (l : label) : Prop :=
  match o with
  | LUpsert _ w' ls => w' = w /\ fst l = name /\ exists l1 l2, ls = l1 ++ l :: l2 /\ ~ In name (map fst l2)
  | _ => False
  end.
Definition lerases (name : N) (o : lop) (w : N) : Prop :=
  match o with LDelete _ w' names => w' = w /\ In name names | LDeleteAll _ w' => w' = w | LUpsert _ _ _ => False end.
Inductive label_after (name : N) (o : lop) : option (N * label) -> option (N * label) -> Prop :=
  | LA_write_empty w l : lwrites name o w l -> label_after name o None (Some (w, l))
  | LA_write_over w l w0 l0 : lwrites name o w l -> w0 <= w -> label_after name o (Some (w0, l0)) (Some (w, l))
  | LA_write_low w l w0 l0 : lwrites name o w l -> w < w0 -> label_after name o (Some (w0, l0)) (Some (w0, l0))
  | LA_erase w w0 l0 : lerases name o w -> w0 <= w -> label_after name o (Some (w0, l0)) None
  | LA_erase_low w w0 l0 : lerases name o w -> w < w0 -> label_after name o (Some (w0, l0)) (Some (w0, l0))
  | LA_erase_empty w : lerases name o w -> label_after name o None None
  | LA_none cur : (forall w l, ~ lwrites name o w l) -> (forall w, ~ lerases name o w) -> label_after name o cur cur.
(* node_id and platform_id *)
Definition not_node_labels (o : lop) : Prop :=
  forall name, In name [1; 2] -> (forall w l, ~ lwrites name o w l) /\ (forall w, ~ lerases name o w).
Definition labels_know (c : lcache) (w ip : N) (x : option (N * N)) : Prop :=
  lstored c ip 1 = match x with Some (host, _) => Some (w, (1, host)) | None => None end /\
  lstored c ip 2 = match x with Some (_, plat) => Some (w, (2, plat)) | None => None end.
