(* Properties of the inputs of enrichment other than files: options records,
   Sonata messages, and the labels of YANG-Push messages. *)
From Verif Require Import Base MapLib EnModel EnSpec EnProofs EnProps InModel InSpec InProofs InRunProofs InLabelProofs InSonataProofs.
From Coq Require Import Permutation.

(* ---- C106 ---- *)
(* An options record that is not refused yields, for everything it tells, an
   operation that says so for its exporter and observation domain, and no other
   operation. One that is refused yields none, and so does a record without
   scope or with a scope that cannot be expressed. *)
Theorem C106_read : forall traverse ip dom w r scope fs, any_order traverse -> orecord_is r scope fs ->
  (refused scope fs -> record_ops traverse ip dom w r = []) /\
  (forall o, In o (record_ops traverse ip dom w r) -> exists cond info, tells scope fs cond info /\ op_for ip dom w cond info o) /\
  (~ refused scope fs -> forall cond info, tells scope fs cond info -> exists o, In o (record_ops traverse ip dom w r) /\ op_for ip dom w cond info o).
Proof. intros traverse ip dom w r scope fs Ht. now apply record_ops_ok. Qed.
Theorem C106_not_read : forall traverse ip dom w r, (forall scope fs, ~ orecord_is r scope fs) -> record_ops traverse ip dom w r = [].
Proof. intros. now apply record_ops_none. Qed.

(* ---- C107 ---- *)
(* A record of the same exporter that carries the condition gets the
   information, unless something else that applies to it and is not lighter is
   stored for the same element. What the same options record stored when it was
   sent before does not count. *)
Theorem C107_reaches_records : forall traverse ops0 ip dom w r scope fs cond info ie v d rec, any_order traverse ->
  orecord_is r scope fs -> ~ refused scope fs -> tells scope fs cond info -> distinct cond -> distinct info -> In (ie, v) info ->
  applies d dom -> carries rec cond ->
  (forall d' scope' w' f', applies d d' -> scope_matches scope' rec -> stored (apply_ops ops0) ip d' scope' (ie, 0) = Some (w', f') ->
     w' < w \/ (w' <= w /\ d' = dom /\ exists info' v', In (Upsert ip dom scope' w info') (record_ops traverse ip dom w r) /\ In (ie, v') info')) ->
  exists l, enrichment_fields (apply_ops (ops0 ++ record_ops traverse ip dom w r)) ip d rec = Some l /\ In (ie, v) l.
Proof. intros traverse ops0 ip dom w r scope fs cond info ie v d rec Ht. intros. now apply (options_reach traverse Ht ops0 ip dom w r scope fs cond info ie v d rec). Qed.

(* ---- C108 ---- *)
(* What records of an exporter and a domain get depends only on the options
   packets of that exporter, for that domain or for all domains. *)
Theorem C108_isolation : forall traverse w ip d ps fs,
  exists keep : opacket -> bool, (forall p, keep p = true <-> k_ip p = ip /\ (k_dom p = 0 \/ k_dom p = d)) /\
  enrichment_fields (apply_ops (options_ops traverse w ps)) ip d fs = enrichment_fields (apply_ops (options_ops traverse w (filter keep ps))) ip d fs.
Proof.
  intros traverse w ip d ps fs. exists (concerns ip d). split.
  - intros p. unfold concerns. rewrite andb_true_iff, orb_true_iff, !N.eqb_eq. reflexivity.
  - rewrite !enrichment_view by apply wf_ops. unfold apply_ops. now rewrite (options_view traverse w ip d ps [] [] eq_refl).
Qed.

(* ---- C109 ---- *)
(* Sampling announced by NetFlow v9 options for an interface does not reach a
   record that has this interface as ingress only. *)
Theorem C109_interface_scope_refuted : forall traverse w, any_order traverse ->
  exists r rec, r = ONetflow [NInterface 7] [(34, 1000)] /\ In (10, 7) rec /\ ~ refused [(10, 7); (14, 7)] [(34, 1000)] /\
  enrichment_fields (apply_ops (record_ops traverse 1 2 w r)) 1 2 rec = None /\
  enrichment_fields (apply_ops (record_ops traverse 1 2 w r)) 1 2 (rec ++ [(14, 7)]) <> None.
Proof.
  intros traverse w Ht. exists (ONetflow [NInterface 7] [(34, 1000)]), [(10, 7)].
  assert (H2 : forall a b, traverse [a; b] = [a; b] \/ traverse [a; b] = [b; a]).
  { intros a b. pose proof (Permutation_length_2_inv (Permutation_sym (Ht [a; b]))). tauto. }
  assert (H1 : forall a, traverse [a] = [a]) by (intros a; now apply Permutation_length_1_inv, Permutation_sym, Ht).
  split; [reflexivity|]. split; [now left|]. split.
  { intros (d & (Hs & _) & _). apply Hs. left. exists 1000. cbn. auto. }
  assert (E : record_ops traverse 1 2 w (ONetflow [NInterface 7] [(34, 1000)]) = [Upsert 1 2 [(10, 7); (14, 7)] w [(34, 1000)]] \/
              record_ops traverse 1 2 w (ONetflow [NInterface 7] [(34, 1000)]) = [Upsert 1 2 [(14, 7); (10, 7)] w [(34, 1000)]]).
  { change (record_ops traverse 1 2 w (ONetflow [NInterface 7] [(34, 1000)])) with
      (filter validate [upsert_from traverse 1 2 w (normalize_plain traverse ([(10, 7); (14, 7)], [(34, 1000)]))]).
    assert (V1 : forall f, values traverse [f] = [f]) by (intros [i v]; unfold values; change (index_fields [(i, v)]) with [((i, 0), (i, v))]; now rewrite H1).
    assert (V2 : forall i j v u, (j =? i) = false -> values traverse [(i, v); (j, u)] = [(i, v); (j, u)] \/ values traverse [(i, v); (j, u)] = [(j, u); (i, v)]).
    { intros i j v u Hn. unfold values. pose (a := ((i, 0), (i, v)) : fref * field). pose (b := ((j, 0), (j, u)) : fref * field).
      assert (Hx : index_fields [(i, v); (j, u)] = [a; b]) by (unfold index_fields; cbn; now rewrite Hn).
      rewrite Hx. destruct (H2 a b) as [E|E]; rewrite E; auto. }
    unfold normalize_plain, upsert_from. cbn [fst snd]. rewrite V1.
    destruct (V2 10 14 7 7 eq_refl) as [E|E]; rewrite E.
    - change (filter (not_among [IE_paddingOctets; IE_exportingProcessId]) [(10, 7); (14, 7)]) with [(10, 7); (14, 7)].
      change (filter (not_among [IE_paddingOctets]) [(34, 1000)]) with [(34, 1000)]. rewrite V1. destruct (V2 10 14 7 7 eq_refl) as [E'|E']; rewrite E'; auto.
    - change (filter (not_among [IE_paddingOctets; IE_exportingProcessId]) [(14, 7); (10, 7)]) with [(14, 7); (10, 7)].
      change (filter (not_among [IE_paddingOctets]) [(34, 1000)]) with [(34, 1000)]. rewrite V1. destruct (V2 14 10 7 7 eq_refl) as [E'|E']; rewrite E'; auto. }
  destruct E as [E|E]; rewrite E; cbn; split; (reflexivity || discriminate).
Qed.

(* ---- C110 ---- *)
(* When an element occurs twice in an options record, which occurrence becomes
   the first is up to the order of a hash table. *)
Theorem C110_repeated_elements_refuted : exists traverse traverse', any_order traverse /\ any_order traverse' /\
  exists r rec, r = OIpfix [(149, 5)] [(96, 1); (96, 2)] /\ rec = [(149, 5)] /\
  forall w, enrichment_fields (apply_ops (record_ops traverse 1 2 w r)) 1 2 rec = Some [(96, 1); (96, 2)] /\
            enrichment_fields (apply_ops (record_ops traverse' 1 2 w r)) 1 2 rec = Some [(96, 2); (96, 1)].
Proof.
  exists (fun l => l), (fun l => if (length l =? 2)%nat && match l with ((96, 0), (96, 1)) :: _ => true | _ => false end then rev l else l).
  split; [intros l; reflexivity|]. split.
  { intros l. match goal with |- context [if ?b then _ else _] => destruct b end; [apply Permutation_sym, Permutation_rev|reflexivity]. }
  exists (OIpfix [(149, 5)] [(96, 1); (96, 2)]), [(149, 5)]. split; [reflexivity|]. split; [reflexivity|]. intros w. split; reflexivity.
Qed.

(* ---- C111 ---- *)
(* While no two nodes have the same address at a time, the cache holds, for
   every address, the name and platform in the last message of the node that has
   it, and nothing for addresses no node has. *)
Theorem C111_flows : forall w fs ip, Forall (fun f => match f with FOther o => not_about_nodes o | FMsg _ => True end) fs -> never_shared (messages fs) ->
  let c := apply_ops (feed_ops (flow_op w) [] fs) in
  (forall n, holder (messages fs) ip n -> flow_knows c w ip (Some (n_host n, n_plat n))) /\
  ((forall n, ~ holder (messages fs) ip n) -> flow_knows c w ip None).
Proof. intros w fs ip Hf Hs. now apply flow_content. Qed.
Theorem C111_labels : forall w fs ip, Forall (fun f => match f with FOther o => not_node_labels o | FMsg _ => True end) fs -> never_shared (messages fs) ->
  let c := apply_label_ops (feed_ops (label_op w) [] fs) in
  (forall n, holder (messages fs) ip n -> labels_know c w ip (Some (n_host n, n_plat n))) /\
  ((forall n, ~ holder (messages fs) ip n) -> labels_know c w ip None).
Proof. intros w fs ip Hf Hs. now apply label_content. Qed.
(* Every flow record of the node then gets its name, unless something that
   applies to the record and is not lighter says otherwise. *)
Theorem C111_records_get_the_name : forall w fs ip n d rec,
  Forall (fun f => match f with FOther o => not_about_nodes o | FMsg _ => True end) fs -> never_shared (messages fs) -> holder (messages fs) ip n ->
  let c := apply_ops (feed_ops (flow_op w) [] fs) in
  (forall d' scope' w' f', applies d d' -> scope_matches scope' rec -> stored c ip d' scope' (netgauze 5, 0) = Some (w', f') -> w' < w \/ (d' = 0 /\ scope' = [])) ->
  exists l, enrichment_fields c ip d rec = Some l /\ In (netgauze 5, n_host n) l.
Proof.
  intros w fs ip n d rec Hf Hs Hh c Hlow. destruct (C111_flows w fs ip Hf Hs) as [H _]. destruct (H n Hh) as [H5 _]. fold c in H5.
  destruct (C34_best_values (feed_ops (flow_op w) [] fs) ip d rec) as (rs & l & _ & Hrs & Hl & He). fold c in Hrs, Hl, He.
  assert (Hm : scope_matches [] rec) by (intros r f E; unfold occurrence in E; cbn in E; destruct (N.to_nat (snd r)); discriminate).
  assert (Hbest : forall w' f', best c ip d rec (netgauze 5, 0) w' f' -> f' = (netgauze 5, n_host n)).
  { intros w' f' (d1 & s1 & Ha1 & Hm1 & Hst1 & Hall). destruct (Hlow _ _ _ _ Ha1 Hm1 Hst1) as [Hl1|[-> ->]]; [|congruence].
    destruct (Hall 0 [] _ _ (or_introl eq_refl) Hm H5) as [H'|[H' _]]; lia. }
  assert (Hr0 : In (netgauze 5, 0) rs) by (apply Hrs; exists 0, [], (w, (netgauze 5, n_host n)); split; [now left|auto]).
  assert (Hex : exists f, In f l /\ exists w', best c ip d rec (netgauze 5, 0) w' f).
  { clear - Hl Hr0. induction Hl as [|x f rs l [_ Hx] _ IH]; [destruct Hr0|]. destruct Hr0 as [->|Hr0]; [exists f; split; [now left|exact Hx]|].
    destruct (IH Hr0) as (g & Hg & Hb). exists g. split; [now right|exact Hb]. }
  destruct Hex as (f & Hin & w' & Hb). rewrite (Hbest _ _ Hb) in Hin. exists l. split; [|exact Hin]. rewrite He. destruct l; [destruct Hin|reflexivity].
Qed.

(* ---- C112 ---- *)
(* A node that takes over an address loses its name when the node that had the
   address before is removed, or moves, afterwards. *)
Theorem C112_taken_over_refuted : forall w, exists ms ms' n n' ip,
  holder ms ip n /\ (forall n0, holder ms ip n0 -> n0 = n) /\
  flow_knows (apply_ops (feed_ops (flow_op w) [] (map FMsg ms))) w ip None /\
  labels_know (apply_label_ops (feed_ops (label_op w) [] (map FMsg ms))) w ip None /\
  (* two nodes exchange their addresses *)
  holder ms' ip n' /\ (forall n0, holder ms' ip n0 -> n0 = n') /\
  flow_knows (apply_ops (feed_ops (flow_op w) [] (map FMsg ms'))) w ip None /\
  labels_know (apply_label_ops (feed_ops (label_op w) [] (map FMsg ms'))) w ip None.
Proof.
  intros w.
  set (ms := [SPut 1 (Some (mkNode 10 7 20)); SPut 2 (Some (mkNode 11 7 21)); SDel 1]).
  set (ms' := [SPut 1 (Some (mkNode 10 7 20)); SPut 2 (Some (mkNode 11 8 21)); SPut 2 (Some (mkNode 11 7 21)); SPut 1 (Some (mkNode 10 8 20))]).
  exists ms, ms', (mkNode 11 7 21), (mkNode 11 7 21), 7.
  split; [exists 2; split; reflexivity|]. split.
  { intros n0 (id & H & E). unfold inventory, ms in H. cbn [fold_left told] in H. destruct (N.eqb_spec 1 id); [discriminate|]. destruct (2 =? id); congruence. }
  split; [apply (forget_flow w [ASet 7 10 20; ASet 7 11 21] [] 7); repeat constructor; discriminate|].
  split; [apply (forget_label w [ASet 7 10 20; ASet 7 11 21] [] 7); repeat constructor; discriminate|].
  split; [exists 2; split; reflexivity|]. split.
  { intros n0 (id & H & E). unfold inventory, ms' in H. cbn [fold_left told] in H. destruct (N.eqb_spec 1 id); [injection H as <-; discriminate|]. destruct (2 =? id); congruence. }
  split; [apply (forget_flow w [ASet 7 10 20; ASet 8 11 21; AForget 8; ASet 7 11 21] [ASet 8 10 20] 7); repeat constructor; discriminate|].
  apply (forget_label w [ASet 7 10 20; ASet 8 11 21; AForget 8; ASet 7 11 21] [ASet 8 10 20] 7); repeat constructor; discriminate.
Qed.

(* ---- C113 ---- *)
(* What one operation does to a label of a node: labels of weight at most its
   own are replaced or deleted, and nothing else changes. *)
Theorem C113_one_operation : forall ops o ip name,
  (l_ip o = ip -> label_after name o (lstored (apply_label_ops ops) ip name) (lstored (apply_label_ops (ops ++ [o])) ip name)) /\
  (l_ip o <> ip -> lstored (apply_label_ops (ops ++ [o])) ip name = lstored (apply_label_ops ops) ip name).
Proof. intros ops o ip name. unfold apply_label_ops. rewrite fold_left_app. cbn [fold_left]. apply label_op_law. apply lwf_ops. Qed.
Theorem C113_values_were_upserted : forall ops ip name w l, lstored (apply_label_ops ops) ip name = Some (w, l) ->
  fst l = name /\ exists ls, In (LUpsert ip w ls) ops /\ In l ls.
Proof. intros ops ip name w l. apply label_origin. Qed.

(* ---- C114 ---- *)
(* A message gets exactly the labels stored for its node, each name once. *)
Theorem C114_message_labels : forall ops ip, let c := apply_label_ops ops in
  match message_labels c ip with
  | None => forall name, lstored c ip name = None
  | Some l => l <> [] /\ NoDup (map fst l) /\ forall x, In x l <-> exists w, lstored c ip (fst x) = Some (w, x)
  end.
Proof. intros ops ip. apply message_labels_ok, lwf_ops. Qed.

Print Assumptions C106_read. Print Assumptions C106_not_read. Print Assumptions C107_reaches_records. Print Assumptions C108_isolation.
Print Assumptions C109_interface_scope_refuted. Print Assumptions C110_repeated_elements_refuted.
Print Assumptions C111_flows. Print Assumptions C111_labels. Print Assumptions C111_records_get_the_name. Print Assumptions C112_taken_over_refuted.
Print Assumptions C113_one_operation. Print Assumptions C113_values_were_upserted. Print Assumptions C114_message_labels.

(* ---- the hypotheses are met ---- *)
Definition in_scope : list field := [(10, 3); (144, 1); (149, 5)].
Definition in_names : list field := [(82, 40); (83, 41); (210, 0)].
Lemma in_not_sampling : ~ about_sampling (in_scope ++ in_names).
Proof. intros H. rewrite <- about_sampling_iff in H. discriminate. Qed.
Lemma in_tells : tells in_scope in_names [(10, 3); (149, 5)] [(netgauze 8, 40); (netgauze 10, 41)].
Proof.
  apply (T_names _ _ interface_in 3 [(149, 5)] [(netgauze 8, 40)] [(netgauze 10, 41)]).
  - split; [exact in_not_sampling|]. left. split; [now left|]. apply about_interface_iff. reflexivity.
  - left. constructor.
  - intros v' H. apply rec_get_identifier in H. discriminate.
  - left. exists 40. split; [constructor|reflexivity].
  - left. exists 41. split; [apply FV_later; [discriminate|constructor]|reflexivity].
  - discriminate.
  - apply without_iff. reflexivity.
Qed.
Lemma in_not_refused : ~ refused in_scope in_names.
Proof.
  pose proof (handle_ok (fun l => l) (fun l => Permutation_refl l) 1 2 4 in_scope in_names) as H.
  destruct (handle_option_record (fun l => l) 1 2 4 (in_scope, in_names)) as [ops|] eqn:E; [now destruct H|discriminate].
Qed.
Example C106_nonvacuous : orecord_is (OIpfix in_scope in_names) in_scope in_names /\ ~ refused in_scope in_names /\
  tells in_scope in_names [(10, 3); (149, 5)] [(netgauze 8, 40); (netgauze 10, 41)] /\
  record_ops (fun l => l) 1 2 4 (OIpfix in_scope in_names) = [Upsert 1 2 [(10, 3); (149, 5)] 4 [(245497864, 40); (245497866, 41)]] /\
  record_ops (fun l => l) 1 2 4 (OIpfix [(10, 3); (14, 4)] in_names) = [] /\
  record_ops (fun l => l) 1 2 4 (ONetflow [NSystem; NInterface 3] in_names) =
    [Upsert 1 2 [(10, 3)] 4 [(245497864, 40); (245497866, 41)]; Upsert 1 2 [(14, 3)] 4 [(245497865, 40); (245497867, 41)]] /\
  record_ops (fun l => l) 1 2 4 (ONetflow [NSystem; NCache] in_names) = [].
Proof. split; [repeat split; discriminate|]. split; [exact in_not_refused|]. split; [exact in_tells|]. repeat split; reflexivity. Qed.
Example C107_nonvacuous :
  distinct [(10, 3); (149, 5)] /\ distinct [(netgauze 8, 40); (netgauze 10, 41)] /\ carries [(1, 9); (10, 3); (149, 5)] [(10, 3); (149, 5)] /\
  let again := record_ops (fun l => l) 1 2 4 (OIpfix in_scope in_names) in
  enrichment_fields (apply_ops (again ++ again)) 1 2 [(1, 9); (10, 3); (149, 5)] = Some [(245497864, 40); (245497866, 41)].
Proof.
  split; [repeat constructor; cbn; intuition discriminate|]. split; [repeat constructor; cbn; intuition discriminate|]. split.
  - intros ie v [H|[H|[]]]; injection H as <- <-; repeat (constructor; try discriminate).
  - reflexivity.
Qed.
Example C108_nonvacuous : let p ip d v := mkPkt ip d [OIpfix [(149, 5)] [(96, v)]] in
  enrichment_fields (apply_ops (options_ops (fun l => l) 4 [p 1 2 7; p 9 2 8; p 1 3 9])) 1 2 [(149, 5)] = Some [(96, 7)].
Proof. reflexivity. Qed.
Definition in_feeds : list (feed op) :=
  [FMsg (SPut 1 (Some (mkNode 10 7 20))); FOther (Upsert 7 0 [] 4 [(34, 1000)]); FMsg (SPut 2 (Some (mkNode 11 8 21)));
   FMsg (SPut 1 (Some (mkNode 10 9 20))); FMsg (SPut 2 (Some (mkNode 12 7 21))); FMsg SBad; FMsg (SDel 1)].
Example C111_nonvacuous :
  Forall (fun f => match f with FOther o => not_about_nodes o | FMsg _ => True end) in_feeds /\ never_shared (messages in_feeds) /\
  holder (messages in_feeds) 7 (mkNode 12 7 21) /\ map fst (apply_ops (feed_ops (flow_op 5) [] in_feeds)) = [7] /\
  enrichment_fields (apply_ops (feed_ops (flow_op 5) [] in_feeds)) 7 1 [(1, 1)] = Some [(34, 1000); (netgauze 5, 12); (netgauze 6, 21)].
Proof.
  split; [|split; [|split; [exists 2; split; reflexivity|]]].
  - repeat (apply Forall_cons; [try exact I|]); try apply Forall_nil. intros ip r [<-|[<-|[]]] _; split; cbn; intuition; discriminate.
  - intros ms1 ms2 E. change (messages in_feeds) with [SPut 1 (Some (mkNode 10 7 20)); SPut 2 (Some (mkNode 11 8 21)); SPut 1 (Some (mkNode 10 9 20)); SPut 2 (Some (mkNode 12 7 21)); SBad; SDel 1] in E.
    assert (Hx : forall k i j a b, inventory (firstn k (messages in_feeds)) i = Some a -> inventory (firstn k (messages in_feeds)) j = Some b -> n_loop a = n_loop b -> i = j).
    { intros k i j a b Hi Hj. unfold inventory in Hi, Hj. do 7 (destruct k as [|k]; [cbn in Hi, Hj;
        destruct (N.eqb_spec 1 i), (N.eqb_spec 2 i), (N.eqb_spec 1 j), (N.eqb_spec 2 j); try congruence; injection Hi as <-; injection Hj as <-; cbn; congruence|]).
      cbn in Hi, Hj. destruct (N.eqb_spec 1 i), (N.eqb_spec 2 i), (N.eqb_spec 1 j), (N.eqb_spec 2 j); try congruence; injection Hi as <-; injection Hj as <-; cbn; congruence. }
    intros i j a b. specialize (Hx (length ms1) i j a b). change (messages in_feeds) with [SPut 1 (Some (mkNode 10 7 20)); SPut 2 (Some (mkNode 11 8 21)); SPut 1 (Some (mkNode 10 9 20)); SPut 2 (Some (mkNode 12 7 21)); SBad; SDel 1] in Hx.
    rewrite E, firstn_app, Nat.sub_diag, firstn_O, firstn_all, app_nil_r in Hx. exact Hx.
  - split; reflexivity.
Qed.
Definition in_label_ops : list lop := [LUpsert 1 5 [(1, 10); (3, 11); (1, 12)]; LUpsert 1 4 [(1, 13); (4, 14)]; LDelete 1 5 [3]; LUpsert 2 9 [(1, 15)]; LDeleteAll 2 9].
Example C113_nonvacuous : lstored (apply_label_ops in_label_ops) 1 1 = Some (5, (1, 12)) /\ lstored (apply_label_ops in_label_ops) 1 3 = None /\ lstored (apply_label_ops in_label_ops) 1 4 = Some (4, (4, 14)).
Proof. repeat split; reflexivity. Qed.
Example C114_nonvacuous : message_labels (apply_label_ops in_label_ops) 1 = Some [(1, 12); (4, 14)] /\ message_labels (apply_label_ops in_label_ops) 2 = None.
Proof. split; reflexivity. Qed.
