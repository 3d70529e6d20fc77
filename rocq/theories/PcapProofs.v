From Verif Require Import Base BaseLemmas PcapModel PcapSpec.
From Coq Require Import Lia.

Lemma is_vlan_spec et : is_vlan et = true <-> vlan_tpid et.
Proof.
  unfold is_vlan, vlan_tpid, ET_VLAN, ET_QINQ, ET_LEGACY_QINQ. rewrite !orb_true_iff, !N.eqb_eq. tauto.
Qed.
Lemma tagged_nonvlan tags et p : Forall (fun t => vlan_tpid (fst t)) tags -> is_vlan (fst (tagged tags et p)) = false -> tags = [].
Proof.
  intros H. destruct H as [|[t [a b]] ts H]; [reflexivity|]. cbn in *. apply is_vlan_spec in H. congruence.
Qed.
(* strip inverts a stack of tags *)
Lemma strip_tagged tags : forall k et p, et < 65536 -> (length tags < k)%nat -> Forall (fun t => vlan_tpid (fst t)) tags ->
  is_vlan et = false -> strip_loop k (fst (tagged tags et p)) (snd (tagged tags et p)) = Ok (Some (et, p)).
Proof.
  induction tags as [|[t [a b]] ts IH]; intros [|k] et p He Hk HF Hv; cbn [length] in Hk; try lia.
  - cbn. rewrite Hv. reflexivity.
  - inversion HF as [|? ? Ht HF']. subst. cbn [tagged fst snd strip_loop]. cbn [fst] in Ht. apply is_vlan_spec in Ht. rewrite Ht. cbn [negb].
    set (i := tagged ts et p) in *. cbn [app]. rewrite !blen_cons.
    assert (vlan_remainder = 4) as E4 by reflexivity. destruct (N.ltb_spec (1 + (1 + (1 + (1 + blen (snd i))))) vlan_remainder); [lia|].
    unfold index. cbn [N.to_nat nth_error]. change (N.to_nat 2) with 2%nat. change (N.to_nat 3) with 3%nat. cbn [nth_error].
    assert (fst i < 65536) as Hi.
    { unfold i. destruct ts as [|[t' [a' b']] ts']; cbn; [exact He|]. inversion HF' as [|? ? Ht' _]. subst. cbn in Ht'. destruct Ht' as [->|[->| ->]]; lia. }
    replace (be_val [fst i / 256; fst i mod 256]) with (fst i).
    2:{ unfold be_val. cbn [fold_left]. lia. }
    change (drop vlan_remainder (a :: b :: fst i / 256 :: fst i mod 256 :: snd i)) with (snd i).
    apply IH; auto. lia.
Qed.
Lemma strip_sound k : forall et payload et' p, bytes_ok payload = true ->
  strip_loop k et payload = Ok (Some (et', p)) ->
  exists tags, (length tags < k)%nat /\ Forall (fun t => vlan_tpid (fst t)) tags /\ is_vlan et' = false /\ tagged tags et' p = (et, payload).
Proof.
  induction k as [|k IH]; intros et payload et' p Hb H; cbn [strip_loop] in H; [discriminate|].
  destruct (is_vlan et) eqn:Hv; cbn [negb] in H.
  - destruct payload as [|a [|b [|c [|d payload]]]]; try (cbn in H; discriminate).
    rewrite !blen_cons in H. destruct (N.ltb_spec (1 + (1 + (1 + (1 + blen payload)))) vlan_remainder) as [|_]; [discriminate|].
    change (index (a :: b :: c :: d :: payload) 2) with (Some c) in H. change (index (a :: b :: c :: d :: payload) 3) with (Some d) in H.
    change (drop vlan_remainder (a :: b :: c :: d :: payload)) with payload in H.
    rewrite !bytes_ok_cons in Hb. rewrite !andb_true_iff in Hb. destruct Hb as (Ha & Hb' & Hc & Hd & Hp).
    apply N.ltb_lt in Hc. apply N.ltb_lt in Hd.
    destruct (IH _ _ _ _ Hp H) as (tags & H1 & H2 & H3 & H4). exists ((et, (a, b)) :: tags). cbn [length]. split; [lia|].
    split; [constructor; [apply is_vlan_spec; exact Hv|exact H2]|]. split; [exact H3|]. cbn [tagged]. rewrite H4. cbn [fst snd].
    unfold be_val. cbn [fold_left]. replace ((0 * 256 + c) * 256 + d) with (c * 256 + d) by lia.
    replace ((c * 256 + d) / 256) with c by lia. replace ((c * 256 + d) mod 256) with d by lia. reflexivity.
  - injection H as <- <-. exists []. split; [cbn; lia|]. split; [constructor|]. split; [exact Hv|reflexivity].
Qed.
Lemma strip_total k : forall et payload, exists r, strip_loop k et payload = Ok r.
Proof.
  induction k as [|k IH]; intros et payload; cbn [strip_loop]; [eexists; reflexivity|].
  destruct (negb (is_vlan et)); [eexists; reflexivity|].
  destruct payload as [|a [|b [|c [|d payload]]]]; try (eexists; reflexivity).
  rewrite !blen_cons. destruct (N.ltb_spec (1 + (1 + (1 + (1 + blen payload)))) vlan_remainder) as [|_]; [eexists; reflexivity|].
  change (index (a :: b :: c :: d :: payload) 2) with (Some c). change (index (a :: b :: c :: d :: payload) 3) with (Some d). apply IH.
Qed.

Section Iter.
Context {D P : Type} (dissect : N -> D -> res unit (option P)) (Hcalm : calm dissect).
Local Notation next_block := (next_block dissect).
Local Notation count := (fun bs : list (block D) => blen (filter (fun b => match b with Legacy _ | EnhancedPacket _ _ => true | _ => false end) bs)).

Definition frames_in (bs : list (block D)) : N :=
  blen (filter (fun b => match b with Legacy _ | EnhancedPacket _ _ | SimplePacket _ => true | _ => false end) bs).
Lemma collect_spec bs : forall fuel links frames, (length bs < fuel)%nat -> plain (length links) bs ->
  exists links', collect dissect fuel (mkIter links frames bs) =
    (flat_map (extracted dissect) (packets links bs), mkIter links' (frames + frames_in bs) [], Ok tt).
Proof.
  assert (forall lt d, (exists p, dissect lt d = Ok (Some p)) \/ dissect lt d = Ok None) as Hd.
  { intros lt d. destruct (Hcalm lt d) as [[p|] H]; eauto. }
  clear Hcalm. induction bs as [|b bs IH]; intros fuel links frames Hf Hp.
  - destruct fuel as [|fuel]; [cbn in Hf; lia|]. exists links. cbn. unfold frames_in. cbn. rewrite N.add_0_r. reflexivity.
  - destruct fuel as [|fuel]; [cbn in Hf; lia|]. cbn [length] in Hf.
    assert (forall links' frames', next dissect (mkIter links frames (b :: bs)) = next dissect (mkIter links' frames' bs) ->
              collect dissect (S fuel) (mkIter links frames (b :: bs)) = collect dissect (S fuel) (mkIter links' frames' bs)) as Hskip.
    { intros l f H. cbn [collect]. rewrite H. reflexivity. }
    assert (forall (lt : N) d, (exists links', collect dissect (S fuel) (mkIter links (frames + 1) bs) =
                (flat_map (extracted dissect) (packets links bs), mkIter links' (frames + 1 + frames_in bs) [], Ok tt)) /\
              (exists links', collect dissect fuel (mkIter links (frames + 1) bs) =
                (flat_map (extracted dissect) (packets links bs), mkIter links' (frames + 1 + frames_in bs) [], Ok tt)) ->
              next dissect (mkIter links frames (b :: bs)) = match dissect lt d with
                 | Ok (Some p) => (mkIter links (frames + 1) bs, Ok (Some p))
                 | Ok None => next dissect (mkIter links (frames + 1) bs)
                 | _ => (mkIter links (frames + 1) (b :: bs), Panic)
                 end ->
              exists links', collect dissect (S fuel) (mkIter links frames (b :: bs)) =
                (extracted dissect (Some lt, d) ++ flat_map (extracted dissect) (packets links bs), mkIter links' (frames + (1 + frames_in bs)) [], Ok tt)) as Hpkt.
    { intros lt d [[l1 H1] [l2 H2]] Hn. cbn [extracted]. destruct (Hd lt d) as [[p Hp']|Hp']; rewrite Hp' in *.
      - exists l2. cbn [collect]. rewrite Hn, H2. cbn [app]. rewrite N.add_assoc. reflexivity.
      - exists l1. rewrite (Hskip _ _ Hn), H1. rewrite N.add_assoc. reflexivity. }
    destruct b as [n|d|n|i d|d| |]; cbn [plain] in Hp; unfold frames_in; cbn [filter]; fold (frames_in bs); cbn [packets flat_map].
    + destruct (IH (S fuel) (links ++ [n]) frames ltac:(lia)) as [l' H'].
      { rewrite app_length. cbn. rewrite Nat.add_1_r. exact Hp. }
      exists l'. rewrite (Hskip (links ++ [n]) frames eq_refl). exact H'.
    + destruct Hp as [Hl Hp]. destruct links as [|lt links']; [cbn in Hl; lia|]. cbn [nth_error].
      rewrite blen_cons. fold (frames_in bs). apply (Hpkt lt d).
      * split; apply IH; auto; lia.
      * reflexivity.
    + destruct (IH (S fuel) (links ++ [n]) frames ltac:(lia)) as [l' H'].
      { rewrite app_length. cbn. rewrite Nat.add_1_r. exact Hp. }
      exists l'. rewrite (Hskip (links ++ [n]) frames eq_refl). exact H'.
    + destruct Hp as [Hl Hp]. destruct (nth_error links (N.to_nat i)) as [lt|] eqn:Hnth.
      2:{ apply nth_error_None in Hnth. lia. }
      rewrite blen_cons. fold (frames_in bs). apply (Hpkt lt d).
      * split; apply IH; auto; lia.
      * cbn [next PcapModel.next_block it_links it_frames it_blocks]. unfold next. cbn [PcapModel.next_block it_links it_frames it_blocks].
        unfold index. rewrite Hnth. reflexivity.
    + contradiction.
    + destruct Hp as [Hl Hp]. destruct links; [|discriminate]. destruct (IH (S fuel) [] frames ltac:(lia) Hp) as [l' H'].
      exists l'. rewrite (Hskip [] frames eq_refl). exact H'.
    + destruct (IH (S fuel) links frames ltac:(lia) Hp) as [l' H'].
      exists l'. rewrite (Hskip links frames eq_refl). exact H'.
Qed.
End Iter.
