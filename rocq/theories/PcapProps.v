(* Properties C40, C62: reading captures. *)
From Verif Require Import Base BaseLemmas PcapModel PcapSpec PcapProofs.
From Coq Require Import Lia.

(* ---- C40 ---- *)
(* Exactly the frames behind at most four tags are unwrapped, to what is
   inside. *)
Theorem C40_strips_exactly_the_tags : forall et payload et' p, bytes_ok payload = true -> et' < 65536 ->
  (strip_vlan_tags et payload = Ok (Some (et', p)) <->
   exists tags, (length tags <= 4)%nat /\ Forall (fun t => vlan_tpid (fst t)) tags /\ ~ vlan_tpid et' /\
     tagged tags et' p = (et, payload)).
Proof.
  intros et payload et' p Hb He. unfold strip_vlan_tags. split.
  - intros H. destruct (strip_sound _ _ _ _ _ Hb H) as (tags & H1 & H2 & H3 & H4). exists tags. unfold max_vlan_tags in H1.
    split; [lia|]. split; [exact H2|]. split; [|exact H4]. rewrite <- is_vlan_spec. congruence.
  - intros (tags & H1 & H2 & H3 & H4). rewrite <- is_vlan_spec in H3. apply not_true_is_false in H3.
    assert (et = fst (tagged tags et' p)) as -> by (rewrite H4; reflexivity).
    replace payload with (snd (tagged tags et' p)) by (rewrite H4; reflexivity). apply strip_tagged; auto. unfold max_vlan_tags. lia.
Qed.
Theorem C40_untagged_unchanged : forall et payload, ~ vlan_tpid et -> strip_vlan_tags et payload = Ok (Some (et, payload)).
Proof.
  intros et payload H. rewrite <- is_vlan_spec in H. apply not_true_is_false in H. unfold strip_vlan_tags. cbn [strip_loop]. rewrite H. reflexivity.
Qed.
Theorem C40_never_out_of_bounds : forall et payload, exists r, strip_vlan_tags et payload = Ok r.
Proof. intros. apply strip_total. Qed.
Print Assumptions C40_strips_exactly_the_tags.
Print Assumptions C40_untagged_unchanged.
Print Assumptions C40_never_out_of_bounds.
Example C40_nonvacuous :
  strip_vlan_tags 34984 [0; 7; 129; 0; 0; 9; 8; 0; 69; 1] = Ok (Some (2048, [69; 1])) /\
  tagged [(34984, (0, 7)); (33024, (0, 9))] 2048 [69; 1] = (34984, [0; 7; 129; 0; 0; 9; 8; 0; 69; 1]) /\
  strip_vlan_tags 33024 [0; 7; 129] = Ok None /\
  strip_vlan_tags 33024 (flat_map (fun _ => [0; 1; 129; 0]) [1; 2; 3; 4] ++ [0; 1; 8; 0; 69]) = Ok None.
Proof. repeat split; vm_compute; reflexivity. Qed.

(* ---- C62 ---- *)
Section Any.
Context {D P : Type} (dissect : N -> D -> res unit (option P)).
(* One section, no simple packet blocks, interfaces described before use:
   every packet comes out once, in order, dissected with the link type of its
   interface, and the frame counter counts the packets. *)
Theorem C62_every_packet_once_partial : forall bs, calm dissect -> plain 0 bs ->
  exists links, read_capture dissect bs =
    (flat_map (extracted dissect) (packets [] bs), mkIter links (blen (packets [] bs)) [], Ok tt).
Proof.
  intros bs Hc Hp. unfold read_capture, iter_new. destruct (collect_spec dissect Hc bs (S (length bs)) [] 0 ltac:(lia) Hp) as [l H].
  exists l. rewrite H. rewrite N.add_0_l. f_equal. f_equal. f_equal. generalize (@nil N).
  clear. induction bs as [|b bs IH]; intros l; [reflexivity|]. unfold frames_in. destruct b; cbn [filter packets]; rewrite ?blen_cons; fold (frames_in bs);
    rewrite <- ?(IH l), <- ?(IH (l ++ [_])), <- ?(IH []); try reflexivity.
Qed.
End Any.
Print Assumptions C62_every_packet_once_partial.

(* A dissector that never fails: link type and frame. *)
Definition demo_dissect (lt : N) (d : N) : res unit (option (N * N)) := Ok (if d =? 0 then None else Some (lt, d)).
(* A second section renumbers its interfaces; the reader keeps counting. *)
Theorem C62_second_section_refuted : exists bs : list (block N),
  flat_map (extracted demo_dissect) (packets [] bs) = [(1, 10); (113, 20)] /\
  exists it, read_capture demo_dissect bs = ([(1, 10); (1, 20)], it, Ok tt).
Proof.
  exists [SectionHeader; InterfaceDescription 1; EnhancedPacket 0 10; SectionHeader; InterfaceDescription 113; EnhancedPacket 0 20].
  split; [reflexivity|]. eexists. vm_compute. reflexivity.
Qed.
(* Simple packet blocks, and interface numbers nobody described, make it panic. *)
Theorem C62_panics_refuted : exists b1 b2 : list (block N),
  packets [] b1 = [(Some 1, 10)] /\ (exists it, read_capture demo_dissect b1 = ([], it, Panic)) /\
  packets [] b2 = [(None, 10)] /\ (exists it, read_capture demo_dissect b2 = ([], it, Panic)).
Proof.
  exists [SectionHeader; InterfaceDescription 1; SimplePacket 10], [SectionHeader; InterfaceDescription 1; EnhancedPacket 3 10].
  split; [reflexivity|]. split; [eexists; vm_compute; reflexivity|]. split; [reflexivity|]. eexists; vm_compute; reflexivity.
Qed.
Print Assumptions C62_second_section_refuted.
Print Assumptions C62_panics_refuted.
Example C62_nonvacuous :
  let bs := [SectionHeader; InterfaceDescription 1; OtherBlock; EnhancedPacket 0 10; EnhancedPacket 0 0; InterfaceDescription 113; EnhancedPacket 1 30; EnhancedPacket 0 40] in
  plain 0 bs /\ calm demo_dissect /\ fst (fst (read_capture demo_dissect bs)) = [(1, 10); (113, 30); (1, 40)].
Proof.
  split; [|split; [|vm_compute; reflexivity]].
  - cbn. change (N.to_nat 0) with 0%nat. change (N.to_nat 1) with 1%nat. repeat split; lia.
  - intros lt d. eexists. reflexivity.
Qed.
