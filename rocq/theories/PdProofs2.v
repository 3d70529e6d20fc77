(* Proofs about the capture decoding tool: the main loop. *)
From Verif Require Import Base BaseLemmas MapLib FramingModel PcapModel PcapSpec PcapProofs PdModel PdSpec PdProofs.

Section Any.
Context {C M E L : Type} (h : handler C M E L).
Definition progresses : Prop := forall s b s' b' m, h_decode h s b = (s', b', DItem m) -> (length b' < length b)%nat.
Lemma loop_ends : progresses -> forall f k s b, (length b <= f)%nat -> snd (decode_loop h f k s b) <> Endless.
Proof.
  intros P. induction f as [|f IH]; intros k s b Hl; destruct b as [|x b]; cbn [decode_loop]; try (cbn; discriminate); [cbn in Hl; lia|].
  destruct (h_decode h s (x :: b)) as [[s' b'] [|m|e|]] eqn:Hd; try (cbn; discriminate).
  - apply P in Hd. specialize (IH k s' b' ltac:(lia)). destruct (decode_loop h f k s' b') as [[[s2 b2] os] r]. exact IH.
  - specialize (IH k s' [] ltac:(cbn; lia)). destruct (decode_loop h f k s' []) as [[[s2 b2] os] r]. exact IH.
Qed.
Lemma handle_ends : progresses -> forall ps p, snd (handle h ps p) <> Endless.
Proof.
  intros P ps p. unfold handle. destruct (transport_eqb _ _ && _); [|discriminate].
  destruct (match mget key_eqb (p_key p) ps with Some cb => cb | None => _ end) as [s b]. unfold decode_buffer.
  pose proof (loop_ends P (length (b ++ p_data p)) (p_key p) s (b ++ p_data p) (le_n _)) as H.
  destruct (decode_loop h _ (p_key p) s (b ++ p_data p)) as [[[s' b'] os] e]. exact H.
Qed.
Lemma all_ends : progresses -> forall l ps, snd (handle_all h ps l) <> Endless.
Proof.
  intros P. induction l as [|p l IH]; intros ps; cbn [handle_all]; [discriminate|]. pose proof (handle_ends P ps p) as H.
  destruct (handle h ps p) as [[ps' r] [| |]]; cbn in H; [|discriminate|congruence]. specialize (IH ps'). destruct (handle_all h ps' l) as [rs e]. exact IH.
Qed.

Section Capture.
Context {D : Type} (dissect : N -> D -> res unit (option pkt)).
Local Notation process := (process h dissect).
Lemma next_shorter bs : forall links n it p, next_block dissect links n bs = (it, Ok (Some p)) ->
  (length (it_blocks it) < length bs)%nat /\ n < it_frames it.
Proof.
  induction bs as [|b bs IH]; intros links n it p; cbn [next_block]; [discriminate|]. cbn [length].
  assert (HP : forall link d, match link with
      | None => (mkIter links (n + 1) (b :: bs), Panic)
      | Some lt => match dissect lt d with
                   | Ok (Some q) => (mkIter links (n + 1) bs, Ok (Some q))
                   | Ok None => next_block dissect links (n + 1) bs
                   | _ => (mkIter links (n + 1) (b :: bs), Panic)
                   end
      end = (it, Ok (Some p)) -> (length (it_blocks it) < S (length bs))%nat /\ n < it_frames it).
  { intros [lt|] d; [|discriminate]. destruct (dissect lt d) as [[q|]| | |]; try discriminate.
    - intros H; inversion H; subst. cbn. lia.
    - intros H. apply IH in H. lia. }
  destruct b; try (intros H; apply IH in H; lia); try discriminate; apply HP.
Qed.
Lemma process_ends : progresses -> forall fuel limit it ps, (length (it_blocks it) < fuel)%nat -> snd (process fuel limit it ps) <> NeverEnds.
Proof.
  intros P. induction fuel as [|f IH]; intros limit it ps Hl; [lia|]. cbn [PdModel.process]. unfold next.
  destruct (next_block dissect (it_links it) (it_frames it) (it_blocks it)) as [it' [[p|]| | |]] eqn:Hn; try discriminate.
  destruct (beyond limit (it_frames it')); [discriminate|]. pose proof (handle_ends P ps p) as Hh.
  destruct (handle h ps p) as [[ps' r] [| |]]; cbn in Hh; [|discriminate|congruence].
  destruct (write_results h (it_frames it') _) as [ls [v|]] eqn:Hw.
  - cbn [snd]. intros ->. revert ls Hw. generalize (match r with Some os => os | None => [] end). induction l as [|o l IHl]; intros ls; cbn [write_results]; [discriminate|].
    destruct (h_render h o); try discriminate. destruct (write_results h (it_frames it') l) as [ls2 v2] eqn:E2. intros H; inversion H; subst. exact (IHl _ eq_refl).
  - apply next_shorter in Hn. specialize (IH limit it' ps' ltac:(lia)). destruct (process f limit it' ps') as [ls' v]. exact IH.
Qed.

(* the packets that are read, with their frame numbers, and how reading ends *)
Fixpoint reads (fuel : nat) (it : iter D) : list (N * pkt) * verdict :=
  match fuel with
  | O => ([], NeverEnds)
  | S f =>
      match next dissect it with
      | (it', Ok (Some p)) => match reads f it' with (ps, v) => ((it_frames it', p) :: ps, v) end
      | (_, Ok None) => ([], Finished)
      | (_, _) => ([], Panicked)
      end
  end.
(* the rest of the loop *)
Fixpoint go (limit : option N) (ps : @peers C) (l : list (N * pkt)) (v : verdict) : list (N * L) * verdict :=
  match l with
  | [] => ([], v)
  | (n, p) :: l' =>
      if beyond limit n then ([], Finished)
      else match handle h ps p with
           | (ps', r, Returned) =>
               match write_results h n (match r with Some os => os | None => [] end) with
               | (ls, Some v) => (ls, v)
               | (ls, None) => match go limit ps' l' v with (ls', v') => (ls ++ ls', v') end
               end
           | (_, _, Crashed) => ([], Panicked)
           | (_, _, Endless) => ([], NeverEnds)
           end
  end.
Lemma process_go fuel : forall limit it ps, process fuel limit it ps = go limit ps (fst (reads fuel it)) (snd (reads fuel it)).
Proof.
  induction fuel as [|f IH]; intros limit it ps; cbn [PdModel.process reads]; [reflexivity|].
  destruct (next dissect it) as [it' [[p|]| | |]]; try reflexivity. specialize (IH limit it').
  destruct (reads f it') as [l v]. cbn [fst snd go] in *. destruct (beyond limit (it_frames it')); [reflexivity|].
  destruct (handle h ps p) as [[ps' r] [| |]]; try reflexivity. rewrite IH. reflexivity.
Qed.
Fixpoint rising (n : N) (l : list (N * pkt)) : Prop :=
  match l with [] => True | x :: l' => n < fst x /\ rising (fst x) l' end.
Lemma reads_rising fuel : forall it, rising (it_frames it) (fst (reads fuel it)).
Proof.
  induction fuel as [|f IH]; intros it; cbn [reads]; [exact I|]. unfold next.
  destruct (next_block dissect (it_links it) (it_frames it) (it_blocks it)) as [it' [[p|]| | |]] eqn:Hn; try exact I.
  apply next_shorter in Hn. specialize (IH it'). destruct (reads f it') as [l v]. cbn [fst rising]. tauto.
Qed.
Lemma write_numbers n os : forall ls v, write_results h n os = (ls, v) -> Forall (fun x => fst x = n) ls.
Proof.
  induction os as [|o os IH]; intros ls v; cbn [write_results]; [intros H; inversion H; constructor|].
  destruct (h_render h o); try (intros H; inversion H; constructor). destruct (write_results h n os) as [ls2 v2]. intros H; inversion H; subst.
  constructor; [reflexivity|]. eapply IH. reflexivity.
Qed.
Lemma go_numbers limit l : forall ps n v, rising n l -> Forall (fun x => n < fst x) (fst (go limit ps l v)).
Proof.
  induction l as [|[m p] l IH]; intros ps n v Hr; cbn [go rising fst] in *; [constructor|]. destruct Hr as [Hm Hr].
  destruct (beyond limit m); [constructor|]. destruct (handle h ps p) as [[ps' r] [| |]]; try constructor.
  destruct (write_results h m _) as [ls o] eqn:Hw. apply write_numbers in Hw.
  assert (HA : Forall (fun x => n < fst x) ls) by (eapply Forall_impl; [|exact Hw]; intros ? ->; exact Hm).
  destruct o as [v'|]; [exact HA|]. specialize (IH ps' m v Hr). destruct (go limit ps' l v) as [ls' v']. cbn [fst] in *. apply Forall_app. split; [exact HA|].
  eapply Forall_impl; [|exact IH]. intros a Ha. cbn in Ha. lia.
Qed.
Definition within (limit : N) (x : N * L) : bool := fst x <=? limit.
Lemma filter_all (f : N * L -> bool) l : Forall (fun x => f x = true) l -> filter f l = l.
Proof. induction 1 as [|x l H _ IH]; cbn; [reflexivity|]. rewrite H, IH. reflexivity. Qed.
Lemma filter_none (f : N * L -> bool) l : Forall (fun x => f x = false) l -> filter f l = [].
Proof. induction 1 as [|x l H _ IH]; cbn; [reflexivity|]. rewrite H, IH. reflexivity. Qed.
Lemma go_limit m l : forall ps n v, rising n l ->
  fst (go (Some m) ps l v) = filter (within m) (fst (go None ps l v)) /\
  (snd (go None ps l v) = Finished -> snd (go (Some m) ps l v) = Finished).
Proof.
  induction l as [|[k p] l IH]; intros ps n v Hr; [cbn; auto|]. pose proof (go_numbers None ((k, p) :: l) ps n v Hr) as HN.
  pose proof (go_numbers None l) as HN2. cbn [go rising fst] in *. destruct Hr as [Hk Hr].
  cbn [beyond]. destruct (N.ltb_spec m k) as [Hb|Hb].
  - split; [|intros; reflexivity]. cbn [fst]. symmetry. apply filter_none.
    destruct (handle h ps p) as [[ps' r] [| |]]; try constructor. destruct (write_results h k _) as [ls o] eqn:Hw. apply write_numbers in Hw.
    assert (HA : Forall (fun x => within m x = false) ls) by (eapply Forall_impl; [|exact Hw]; intros ? Ha; unfold within; rewrite Ha; lia).
    destruct o as [v'|]; [exact HA|]. specialize (HN2 ps' k v Hr). destruct (go None ps' l v) as [ls' v']. cbn [fst] in *. apply Forall_app. split; [exact HA|].
    eapply Forall_impl; [|exact HN2]. intros a Ha. unfold within. cbn in Ha. lia.
  - destruct (handle h ps p) as [[ps' r] [| |]]; try (split; [reflexivity|auto]). destruct (write_results h k _) as [ls o] eqn:Hw. apply write_numbers in Hw.
    assert (HA : Forall (fun x => within m x = true) ls) by (eapply Forall_impl; [|exact Hw]; intros ? Ha; unfold within; rewrite Ha; lia).
    destruct o as [v'|].
    + split; [cbn [fst]; symmetry; apply filter_all; exact HA|auto].
    + destruct (IH ps' k v Hr) as [I1 I2]. destruct (go None ps' l v) as [ls' v'], (go (Some m) ps' l v) as [ls2 v2]. cbn [fst snd] in *.
      rewrite filter_app, (filter_all _ ls HA), I1. auto.
Qed.

(* what is read from an ordinary capture *)
Lemma next_skip links n b bs links' : next_block dissect links n (b :: bs) = next_block dissect links' n bs ->
  forall f, reads (S f) (mkIter links n (b :: bs)) = reads (S f) (mkIter links' n bs).
Proof. intros H f. cbn [reads]. unfold next. cbn [it_links it_frames it_blocks]. rewrite H. reflexivity. Qed.
Lemma reads_plain : calm dissect -> forall bs fuel links n, (length bs < fuel)%nat -> plain (length links) bs ->
  reads fuel (mkIter links n bs) = (number_from dissect (n + 1) (packets links bs), Finished).
Proof.
  intros Hcalm. assert (Hd : forall lt d, (exists p, dissect lt d = Ok (Some p)) \/ dissect lt d = Ok None).
  { intros lt d. destruct (Hcalm lt d) as [[p|] H]; eauto. }
  induction bs as [|b bs IH]; intros [|f] links n Hf Hp; cbn [length] in Hf; try lia; [reflexivity|].
  assert (HP : forall lt d rest, next_block dissect links n (b :: bs) = match dissect lt d with
                 | Ok (Some p) => (mkIter links (n + 1) bs, Ok (Some p))
                 | Ok None => next_block dissect links (n + 1) bs
                 | _ => (mkIter links (n + 1) (b :: bs), Panic)
                 end -> packets links (b :: bs) = (Some lt, d) :: rest -> rest = packets links bs -> plain (length links) bs ->
    reads (S f) (mkIter links n (b :: bs)) = (number_from dissect (n + 1) ((Some lt, d) :: packets links bs), Finished)).
  { intros lt d rest Hn _ _ Hp'. cbn [number_from]. cbn [extracted]. destruct (Hd lt d) as [[p Ep]|Ep]; rewrite Ep in *.
    - cbn [reads]. unfold next. cbn [it_links it_frames it_blocks]. rewrite Hn. rewrite (IH f links (n + 1) ltac:(lia) Hp'). reflexivity.
    - transitivity (reads (S f) (mkIter links (n + 1) bs)); [cbn [reads]; unfold next; cbn [it_links it_frames it_blocks]; rewrite Hn; reflexivity|].
      rewrite (IH (S f) links (n + 1) ltac:(lia) Hp'). reflexivity. }
  destruct b as [m|d|m|i d|d| |]; cbn [plain packets] in *.
  - rewrite (next_skip links n (LegacyHeader m) bs (links ++ [m]) eq_refl). apply IH; [lia|]. rewrite app_length. cbn. rewrite Nat.add_1_r. exact Hp.
  - destruct Hp as [Hl Hp]. destruct links as [|lt links]; [cbn in Hl; lia|]. cbn [nth_error]. eapply HP; auto.
  - rewrite (next_skip links n (InterfaceDescription m) bs (links ++ [m]) eq_refl). apply IH; [lia|]. rewrite app_length. cbn. rewrite Nat.add_1_r. exact Hp.
  - destruct Hp as [Hl Hp]. destruct (nth_error links (N.to_nat i)) as [lt|] eqn:Hnth; [|apply nth_error_None in Hnth; lia].
    eapply HP; auto. cbn [next_block]. unfold index. rewrite Hnth. reflexivity.
  - contradiction.
  - destruct Hp as [Hl Hp]. destruct links; [|discriminate]. rewrite (next_skip [] n SectionHeader bs [] eq_refl). apply IH; [lia|exact Hp].
  - rewrite (next_skip links n OtherBlock bs links eq_refl). apply IH; [lia|exact Hp].
Qed.
Lemma reads_numbered bs : calm dissect -> plain 0 bs -> reads (S (length bs)) (iter_new bs) = (numbered dissect bs, Finished).
Proof. intros Hc Hp. unfold iter_new, numbered. rewrite (reads_plain Hc bs (S (length bs)) [] 0 ltac:(lia) Hp). reflexivity. Qed.

(* lines and results *)
Lemma write_results_spec n os : exists k, Forall2 (rendered_as h) (firstn k (map (pair n) os)) (fst (write_results h n os)) /\
  (snd (write_results h n os) = None -> k = length os) /\
  (forall v, snd (write_results h n os) = Some v -> v <> Finished /\ exists o, nth_error os k = Some o /\ forall l, h_render h o <> RLine l).
Proof.
  induction os as [|o os IH]; cbn [write_results map].
  - exists 0%nat. cbn. split; [apply Forall2_nil|]. split; [reflexivity|discriminate].
  - destruct (h_render h o) as [l| |] eqn:Hr.
    + destruct IH as (k & I1 & I2 & I3). destruct (write_results h n os) as [ls v]. exists (S k). cbn [firstn fst snd length nth_error] in *.
      split; [constructor; [split; [reflexivity|exact Hr]|exact I1]|]. split; [intros H; rewrite (I2 H); reflexivity|exact I3].
    + exists 0%nat. cbn. split; [apply Forall2_nil|]. split; [discriminate|]. intros v Hv. split; [congruence|]. exists o. split; [reflexivity|]. rewrite Hr. discriminate.
    + exists 0%nat. cbn. split; [apply Forall2_nil|]. split; [discriminate|]. intros v Hv. split; [congruence|]. exists o. split; [reflexivity|]. rewrite Hr. discriminate.
Qed.
Definition results_of (ps : @peers C) (l : list (N * pkt)) := handle_all h ps (map snd l).
Lemma lines_for_cons n ns x rs : lines_for h (n :: ns) (x :: rs) = map (pair n) (outcomes [x]) ++ lines_for h ns rs.
Proof. reflexivity. Qed.
Lemma go_spec l : forall ps, exists k,
  Forall2 (rendered_as h) (firstn k (lines_for h (map fst l) (fst (results_of ps l)))) (fst (go None ps l Finished)) /\
  (snd (go None ps l Finished) = Finished -> k = length (lines_for h (map fst l) (fst (results_of ps l))) /\ snd (results_of ps l) = Returned) /\
  ((forall n o, In (n, o) (lines_for h (map fst l) (fst (results_of ps l))) -> exists y, h_render h o = RLine y) -> snd (results_of ps l) = Returned ->
   snd (go None ps l Finished) = Finished).
Proof.
  induction l as [|[n p] l IH]; intros ps; unfold results_of in *; cbn [map fst snd go handle_all beyond].
  { exists 0%nat. cbn. split; [apply Forall2_nil|]. auto. }
  destruct (handle h ps p) as [[ps' r] [| |]] eqn:Hh.
  2-3: exists 0%nat; cbn; split; [apply Forall2_nil|split; discriminate].
  destruct (IH ps') as (k & I1 & I2 & I3). destruct (handle_all h ps' (map snd l)) as [rs e]. cbn [fst snd] in *.
  rewrite lines_for_cons. assert (Ho : outcomes [(p, r)] = match r with Some os => os | None => [] end) by (unfold outcomes; cbn; apply app_nil_r).
  rewrite Ho. set (os := match r with Some os => os | None => [] end) in *.
  destruct (write_results_spec n os) as (k0 & W1 & W2 & W3). destruct (write_results h n os) as [ls [v|]]; cbn [fst snd] in *.
  - exists k0. destruct (W3 v eq_refl) as (Hv & o & Hk & Hbad). assert (Hlt : (k0 < length os)%nat) by (apply nth_error_Some; congruence).
    rewrite firstn_app, map_length. replace (k0 - length os)%nat with 0%nat by lia. cbn [firstn]. rewrite app_nil_r.
    split; [exact W1|]. split; [intros; contradiction|]. intros Hall _. exfalso.
    destruct (Hall n o) as [y Hy]; [|exact (Hbad y Hy)]. apply in_or_app. left. apply in_map. eapply nth_error_In; eauto.
  - rewrite (W2 eq_refl) in W1. rewrite <- (map_length (pair n)), firstn_all in W1. destruct (go None ps' l Finished) as [ls' v']. cbn [fst snd] in *.
    exists (length (map (pair n) os) + k)%nat. split; [|split].
    + rewrite firstn_app_2. apply Forall2_app; [exact W1|exact I1].
    + intros H. destruct (I2 H) as [-> Hr]. rewrite app_length. auto.
    + intros Hall Hr. apply I3; [|exact Hr]. intros m o Hi. apply (Hall m o), in_or_app. right. exact Hi.
Qed.
End Capture.
End Any.
