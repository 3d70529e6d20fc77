(* Proofs about UDP-Notif segment reassembly and the datagram decoder. *)
From Coq Require Import Permutation.
From Verif Require Import Base BaseLemmas MapLib UdpNotifModel UdpNotifSpec UdpNotifProofs.

(* ---- one message seen in isolation ---- *)
Definition step1 (now : N) (o : option reasm) (p : packet)
  : option reasm * res codec_err (option packet) :=
  match extract_segment_info (p_options p) with
  | Ok (seg_no, is_last) =>
      if (seg_no =? 0) && is_last then (o, Ok (Some p))
      else
        let cur := match o with Some b => b | None => reasm_new now end in
        let b := reasm_add seg_no p is_last cur in
        if negb (reasm_ready b) then (Some b, Ok None)
        else (None, match reasm_assemble b with
               | Ok q => Ok (Some q)
               | Err e => Err (CReasm e)
               | Panic => Panic
               | Diverge => Diverge
               end)
  | Err e => (o, Err e)
  | Panic => (o, Panic)
  | Diverge => (o, Diverge)
  end.
Fixpoint run1 (o : option reasm) (h : list (N * packet))
  : option reasm * list (res codec_err (option packet)) :=
  match h with
  | [] => (o, [])
  | (now, p) :: h' => let (o1, r) := step1 now o p in
                      let (o2, rs) := run1 o1 h' in (o2, r :: rs)
  end.
Definition get (k : N * N) (c : codec) := mget msg_key_eqb k (incomplete c).

Lemma try_reassemble_own now c p :
  snd (try_reassemble now c p) = snd (step1 now (get (key_of p) c) p) /\
  get (key_of p) (fst (try_reassemble now c p)) = fst (step1 now (get (key_of p) c) p).
Proof.
  unfold try_reassemble, step1, get, key_of.
  destruct (extract_segment_info (p_options p)) as [[n l]|e| |]; auto.
  destruct ((n =? 0) && l); auto.
  cbv zeta. destruct (negb _); cbn [fst snd incomplete]; (split; [reflexivity|]).
  - apply (mget_mset_eq _ msg_key_eqb_spec).
  - apply mget_mrem_eq.
Qed.
Lemma try_reassemble_other now c p k : k <> key_of p ->
  get k (fst (try_reassemble now c p)) = get k c.
Proof.
  unfold try_reassemble, get, key_of. intros Hk.
  destruct (extract_segment_info (p_options p)) as [[n l]|e| |]; auto.
  destruct ((n =? 0) && l); auto.
  cbv zeta. destruct (negb _); cbn [fst snd incomplete].
  - now apply (mget_mset_neq _ msg_key_eqb_spec).
  - now apply (mget_mrem_neq _ msg_key_eqb_spec).
Qed.
Lemma has_key_spec k p : reflect (k = key_of p) (has_key k p).
Proof.
  unfold has_key, key_of. destruct k as [a b]; cbn [fst snd].
  destruct (N.eqb_spec (p_publisher p) a), (N.eqb_spec (p_message p) b); cbn; constructor; congruence.
Qed.
Lemma run_packets_proj k h : forall c c' rs, run_packets c h = (c', rs) ->
  run1 (get k c) (filter (fun x => has_key k (snd x)) h) = (get k c', answers_for k h rs).
Proof.
  induction h as [|[now p] h IH]; intros c c' rs H; cbn [run_packets] in H.
  - inversion H; subst. reflexivity.
  - destruct (try_reassemble now c p) as [c1 r] eqn:E1.
    destruct (run_packets c1 h) as [c2 rs2] eqn:E2. inversion H; subst; clear H.
    apply IH in E2. cbn [filter snd answers_for].
    destruct (has_key_spec k p) as [Hk|Hk].
    + cbn [run1]. subst k. destruct (try_reassemble_own now c p) as [H1 H2]. rewrite E1 in H1, H2. cbn [fst snd] in *.
      destruct (step1 now (get (key_of p) c) p) as [o1 r1] eqn:Es. cbn [fst snd] in *. subst.
      rewrite E2. reflexivity.
    + rewrite <- E2. f_equal. symmetry.
      rewrite <- (try_reassemble_other now c p k Hk), E1. reflexivity.
Qed.

(* ---- sorted maps ---- *)
Fixpoint sorted_from {V} (lo : N) (m : list (N * V)) : Prop :=
  match m with
  | [] => True
  | (k, _) :: m' => lo <= k /\ sorted_from (k + 1) m'
  end.
Lemma sorted_from_weaken {V} (m : list (N * V)) : forall lo lo', lo' <= lo -> sorted_from lo m -> sorted_from lo' m.
Proof. destruct m as [|[k v] m]; cbn; intros lo lo' H; [auto|]. intros [H1 H2]; split; [lia|auto]. Qed.
Lemma bt_insert_sorted {V} k (v : V) m : forall lo, lo <= k -> sorted_from lo m -> sorted_from lo (bt_insert k v m).
Proof.
  induction m as [|[k' v'] m IH]; cbn [bt_insert sorted_from]; intros lo Hk Hs; [auto|].
  destruct Hs as [H1 H2].
  destruct (k <? k') eqn:E1; cbn [sorted_from]; [split; [lia|]; split; [lia|auto]|].
  destruct (k =? k') eqn:E2; cbn [sorted_from].
  - assert (k = k') by lia; subst; auto.
  - split; [lia|]. apply IH; [lia|auto].
Qed.
Lemma bt_insert_In {V} k (v : V) m : forall lo, sorted_from lo m -> forall j w,
  In (j, w) (bt_insert k v m) <-> (j = k /\ w = v) \/ (j <> k /\ In (j, w) m).
Proof.
  induction m as [|[k' v'] m IH]; cbn [bt_insert]; intros lo Hs j w.
  - cbn. intuition congruence.
  - cbn [sorted_from] in Hs. destruct Hs as [H1 H2].
    assert (Hlt : forall x y, In (x, y) m -> k' < x).
    { clear - H2. intros x y. assert (H : k' < k' + 1) by lia. revert H H2. generalize (k' + 1).
      induction m as [|[a b] m IH]; cbn; [tauto|]. intros n Hn [Ha Hs] [E|Hi].
      - injection E as -> ->; lia.
      - eapply IH; [|exact Hs|exact Hi]. lia. }
    destruct (k <? k') eqn:E1.
    + cbn [In]. split.
      * intros [E|[E|Hi]].
        -- injection E as <- <-. left; auto.
        -- right. split; [|auto]. injection E as <- <-. lia.
        -- right. split; [|auto]. apply Hlt in Hi. lia.
      * intros [[-> ->]|[Hn [E|Hi]]]; auto.
    + destruct (k =? k') eqn:E2.
      * assert (k = k') by lia; subst k'. cbn [In]. split.
        -- intros [E|Hi]; [injection E as <- <-; auto|]. right. split; [|auto]. apply Hlt in Hi. lia.
        -- intros [[-> ->]|[Hn [E|Hi]]]; auto. injection E as <- <-. congruence.
      * cbn [In]. rewrite (IH (k' + 1) H2). split.
        -- intros [E|[[-> ->]|[Hn Hi]]]; auto. injection E as <- <-. right. split; [lia|auto].
        -- intros [[-> ->]|[Hn [E|Hi]]]; auto.
Qed.
Lemma bt_insert_nonempty {V} k (v : V) m : bt_insert k v m <> [].
Proof. destruct m as [|[k' v'] m]; cbn; [discriminate|]. destruct (k <? k'), (k =? k'); discriminate. Qed.
Lemma sorted_length {V} (m : list (N * V)) : forall lo hi, sorted_from lo m ->
  (forall k v, In (k, v) m -> k < hi) -> lo <= hi -> lo + blen m <= hi.
Proof.
  induction m as [|[k v] m IH]; intros lo hi Hs Hb Hlh; [rewrite blen_nil; lia|].
  cbn [sorted_from] in Hs. destruct Hs as [H1 H2]. rewrite blen_cons.
  assert (k < hi) by (apply (Hb k v); left; reflexivity).
  assert (k + 1 + blen m <= hi) by (apply IH; [assumption|intros; eapply Hb; right; eassumption|lia]). lia.
Qed.
Fixpoint enum {V} (i : N) (xs : list V) : list (N * V) :=
  match xs with [] => [] | x :: xs' => (i, x) :: enum (i + 1) xs' end.
Lemma sorted_full {V} (m : list (N * V)) : forall lo hi, sorted_from lo m ->
  (forall k v, In (k, v) m -> k < hi) -> lo + blen m = hi -> m = enum lo (map snd m).
Proof.
  induction m as [|[k v] m IH]; intros lo hi Hs Hb Hl; [reflexivity|].
  cbn [sorted_from] in Hs. destruct Hs as [H1 H2]. rewrite blen_cons in Hl.
  assert (k < hi) by (apply (Hb k v); left; reflexivity).
  assert (k + 1 + blen m <= hi) by (apply sorted_length; [assumption|intros; eapply Hb; right; eassumption|lia]).
  assert (k = lo) by lia. subst k. cbn [map snd enum]. f_equal.
  apply (IH (lo + 1) hi); [assumption|intros; eapply Hb; right; eassumption|lia].
Qed.
Lemma first_gap_enum xs : forall i, first_gap i (enum i xs) = None.
Proof. induction xs as [|x xs IH]; intros i; cbn; [reflexivity|]. rewrite N.eqb_refl. apply IH. Qed.
Lemma first_gap_None m : forall i, first_gap i m = None -> m = enum i (map snd m).
Proof.
  induction m as [|[k v] m IH]; intros i; cbn [first_gap]; [reflexivity|].
  destruct (N.eqb_spec i k) as [->|]; [|discriminate]. intros H. cbn [map snd enum]. f_equal. auto.
Qed.
Lemma enum_snd {V} (xs : list V) : forall i, map snd (enum i xs) = xs.
Proof. induction xs; intros i; cbn; [reflexivity|]. now rewrite IHxs. Qed.
Lemma enum_In {V} (xs : list V) : forall i k x, In (k, x) (enum i xs) <-> exists j, nth_error xs j = Some x /\ k = i + N.of_nat j.
Proof.
  induction xs as [|y xs IH]; intros i k x; cbn [enum In].
  - split; [tauto|]. intros [[|j] [H _]]; discriminate.
  - rewrite IH. split.
    + intros [E|[j [H1 H2]]]; [injection E as <- <-; exists O; split; [reflexivity|lia]|].
      exists (S j). split; [assumption|lia].
    + intros [[|j] [H1 H2]].
      * cbn in H1. injection H1 as ->. left. f_equal. lia.
      * right. exists j. split; [assumption|lia].
Qed.
Lemma enum_blen {V} (xs : list V) i : blen (enum i xs) = blen xs.
Proof. rewrite <- (blen_map snd (enum i xs)), enum_snd. reflexivity. Qed.
Lemma sorted_ext {V} (m m' : list (N * V)) : forall lo, sorted_from lo m -> sorted_from lo m' ->
  (forall k v, In (k, v) m <-> In (k, v) m') -> m = m'.
Proof.
  assert (Hlow : forall (m : list (N * V)) lo k v, sorted_from lo m -> In (k, v) m -> lo <= k).
  { clear. induction m as [|[a b] m IH]; cbn; [tauto|]. intros lo k v [H1 H2] [E|Hi].
    - injection E as <- <-; lia.
    - apply (IH (a + 1) k v) in Hi; [lia|assumption]. }
  revert m'. induction m as [|[k v] m IH]; intros [|[k' v'] m'] lo Hs Hs' He.
  - reflexivity.
  - exfalso. apply (He k' v'). left; reflexivity.
  - exfalso. apply (He k v). left; reflexivity.
  - cbn [sorted_from] in *. destruct Hs as [H1 H2], Hs' as [H1' H2'].
    assert (E : (k, v) = (k', v')).
    { assert (Ha : In (k, v) ((k', v') :: m')) by (apply He; left; reflexivity).
      assert (Hb : In (k', v') ((k, v) :: m)) by (apply He; left; reflexivity).
      destruct Ha as [Ha|Ha]; [congruence|]. destruct Hb as [Hb|Hb]; [congruence|].
      apply (Hlow _ _ _ _ H2') in Ha. apply (Hlow _ _ _ _ H2) in Hb. lia. }
    injection E as <- <-. f_equal. apply (IH m' (k + 1)); [assumption|assumption|].
    intros a b. specialize (He a b). cbn [In] in He.
    split; intros Hi.
    + assert (Hx := Hlow _ _ _ _ H2 Hi). destruct He as [He _]. destruct He as [E|Hi']; [auto|injection E as <- <-; lia|assumption].
    + assert (Hx := Hlow _ _ _ _ H2' Hi). destruct He as [_ He]. destruct He as [E|Hi']; [auto|injection E as <- <-; lia|assumption].
Qed.
Lemma enum_sorted {V} (xs : list V) : forall i, sorted_from i (enum i xs).
Proof. induction xs; intros i; cbn; [exact I|]. split; [lia|apply IHxs]. Qed.

(* ---- the packet that comes out ---- *)
Definition joined (first : packet) (others : list packet) : packet :=
  mkPkt (p_media first) (p_publisher first) (p_message first)
        (fold_left add_opts others [])
        (fold_left (fun acc p => acc ++ p_payload p) others (p_payload first)).
Lemma joined_payload first others : p_payload (joined first others) = concat (map p_payload (first :: others)).
Proof.
  cbn [joined p_payload map concat]. generalize (p_payload first).
  induction others as [|x xs IH]; intros a; cbn; [now rewrite app_nil_r|].
  rewrite IH. now rewrite app_assoc.
Qed.
Lemma fold_left_snd {A B C} (f : C -> B -> C) (l : list (A * B)) : forall c,
  fold_left (fun acc kv => f acc (snd kv)) l c = fold_left f (map snd l) c.
Proof. induction l as [|x l IH]; intros c; cbn; auto. Qed.
Lemma assemble_full first others b : rb_segments b = enum 0 (first :: others) ->
  rb_has_last b = true -> rb_expected b = blen (rb_segments b) ->
  reasm_assemble b = Ok (joined first others).
Proof.
  intros Hs Hl He. unfold reasm_assemble. rewrite Hl, He, N.eqb_refl. cbn [negb].
  rewrite Hs, first_gap_enum. cbn [enum].
  unfold joined. rewrite (fold_left_snd add_opts).
  rewrite (fold_left_snd (fun acc p => acc ++ p_payload p)). rewrite enum_snd. reflexivity.
Qed.
Lemma add_opts_get acc p code : code <> CSegment ->
  NoDup (map fst (p_options p)) ->
  mget opt_code_eqb code (add_opts acc p) =
  match mget opt_code_eqb code (p_options p) with
  | Some o => Some o | None => mget opt_code_eqb code acc end.
Proof.
  intros Hc. unfold add_opts. revert acc.
  induction (p_options p) as [|[k o] m IH]; intros acc Hn; cbn [fold_left fst snd mget]; [reflexivity|].
  cbn [map fst] in Hn. apply NoDup_cons_iff in Hn as [Hk Hn].
  rewrite IH by assumption.
  destruct (opt_code_eqb_spec code k) as [->|Hck].
  - assert (E : mget opt_code_eqb k m = None) by (apply (mget_None_notin _ opt_code_eqb_spec); exact Hk).
    rewrite E. destruct (opt_code_eqb_spec k CSegment) as [|_]; [congruence|].
    apply (mget_mset_eq _ opt_code_eqb_spec).
  - destruct (mget opt_code_eqb code m) eqn:Em; [reflexivity|].
    destruct (opt_code_eqb_spec k CSegment); [reflexivity|].
    now apply (mget_mset_neq _ opt_code_eqb_spec).
Qed.
Lemma joined_options others : forall acc code, code <> CSegment ->
  Forall (fun p => NoDup (map fst (p_options p))) others ->
  mget opt_code_eqb code (fold_left add_opts others acc) =
  match last_option code others with Some o => Some o | None => mget opt_code_eqb code acc end.
Proof.
  induction others as [|x xs IH]; intros acc code Hc Hf; cbn [fold_left last_option]; [reflexivity|].
  inversion Hf; subst. rewrite IH by assumption.
  destruct (last_option code xs); [reflexivity|]. now apply add_opts_get.
Qed.
Lemma joined_no_segment others : forall acc, mget opt_code_eqb CSegment acc = None ->
  mget opt_code_eqb CSegment (fold_left add_opts others acc) = None.
Proof.
  induction others as [|x xs IH]; intros acc Ha; cbn [fold_left]; [assumption|].
  apply IH. unfold add_opts. revert acc Ha. induction (p_options x) as [|[k o] m IHm]; intros acc Ha; cbn [fold_left fst snd]; [assumption|].
  apply IHm. destruct (opt_code_eqb_spec k CSegment) as [->|Hk]; [assumption|].
  rewrite (mget_mset_neq _ opt_code_eqb_spec); [assumption|congruence].
Qed.

(* ---- one message: invariant over arrivals ---- *)
Lemma extract_of_segment p n l : segment_of p = Some (n, l) -> extract_segment_info (p_options p) = Ok (n, l).
Proof.
  unfold segment_of, extract_segment_info.
  destruct (mget opt_code_eqb CSegment (p_options p)) as [[a b|v|t v]|]; congruence.
Qed.

Section OneMessage.
  Variable k : N * N.
  Variable segs : list packet.
  Hypothesis Hseg : segmentation k segs.

  Definition inv (arr : list packet) (o : option reasm) : Prop :=
    match o with
    | None => arr = []
    | Some b =>
        sorted_from 0 (rb_segments b) /\
        (forall i p, In (i, p) (rb_segments b) <->
                     exists j, nth_error segs j = Some p /\ i = N.of_nat j /\ In p arr) /\
        (rb_has_last b = true <-> exists p, nth_error segs (length segs - 1) = Some p /\ In p arr) /\
        (rb_has_last b = true -> rb_expected b = blen segs)
    end.
  Lemma seg_index_inj i j p : nth_error segs i = Some p -> nth_error segs j = Some p -> i = j.
  Proof.
    intros Hi Hj. apply Hseg in Hi as [_ Hi]. apply Hseg in Hj as [_ Hj]. rewrite Hi in Hj.
    injection Hj as Hj _. lia.
  Qed.
  Lemma inv_add now arr o p j :
    inv arr o -> nth_error segs j = Some p ->
    inv (p :: arr) (Some (reasm_add (N.of_nat j) p (Nat.eqb (S j) (length segs))
                        match o with Some b => b | None => reasm_new now end)).
  Proof.
    intros Hi Hj. 
    assert (Hjl : (j < length segs)%nat) by (apply nth_error_Some; congruence).
    set (b := match o with Some b => b | None => reasm_new now end).
    assert (Hb : sorted_from 0 (rb_segments b) /\
        (forall i p, In (i, p) (rb_segments b) <->
                     exists j, nth_error segs j = Some p /\ i = N.of_nat j /\ In p arr) /\
        (rb_has_last b = true <-> exists p, nth_error segs (length segs - 1) = Some p /\ In p arr) /\
        (rb_has_last b = true -> rb_expected b = blen segs)).
    { destruct o as [b0|]; [exact Hi|]. subst b. cbn in Hi. subst arr. cbn.
      split; [exact I|]. split; [firstorder|]. split; [|discriminate]. split; [discriminate|].
      intros [? [_ []]]. }
    clearbody b. clear Hi o. destruct Hb as [Hs [Hin [Hlast Hexp]]].
    cbn [inv reasm_add rb_segments rb_has_last rb_expected].
    split; [apply bt_insert_sorted; [lia|assumption]|].
    split; [|split].
    - intros i q. rewrite (bt_insert_In _ _ _ 0 Hs). rewrite Hin. split.
      + intros [[-> ->]|[Hn [j' [H1 [H2 H3]]]]]; [exists j; cbn; auto|exists j'; cbn; auto].
      + intros [j' [H1 [-> [<-|H3]]]].
        * left. rewrite (seg_index_inj _ _ _ Hj H1). auto.
        * destruct (Nat.eq_dec j j') as [<-|Hn]; [left; rewrite Hj in H1; injection H1 as <-; auto|].
          right. split; [lia|]. exists j'. auto.
    - destruct (Nat.eqb_spec (S j) (length segs)) as [E|E].
      + split; [intros _|auto]. exists p. replace (length segs - 1)%nat with j by lia. cbn; auto.
      + rewrite Hlast. split.
        * intros [q [H1 H2]]. exists q. cbn; auto.
        * intros [q [H1 [<-|H2]]]; [|eauto]. assert (j = length segs - 1)%nat by (eapply seg_index_inj; eassumption). lia.
    - destruct (Nat.eqb_spec (S j) (length segs)) as [E|E]; [|assumption].
      intros _. unfold blen. lia.
  Qed.
  Definition all_arrived (arr : list packet) : Prop := forall p, In p segs -> In p arr.
  Lemma seg_keys_bound arr b i p : inv arr (Some b) -> In (i, p) (rb_segments b) -> i < blen segs.
  Proof.
    intros [_ [Hin _]] Hi. apply Hin in Hi as [j [Hj [-> _]]].
    assert (j < length segs)%nat by (apply nth_error_Some; congruence). unfold blen; lia.
  Qed.
  Lemma inv_full arr b : inv arr (Some b) -> all_arrived arr -> (0 < length segs)%nat ->
    rb_segments b = enum 0 segs /\ rb_has_last b = true /\ rb_expected b = blen (rb_segments b).
  Proof.
    intros Hi Hall Hl. assert (Hi' := Hi). destruct Hi as [Hs [Hin [Hlast Hexp]]].
    assert (E : rb_segments b = enum 0 segs).
    { eapply sorted_ext; [exact Hs|apply enum_sorted|]. intros i p. rewrite Hin, enum_In. split.
      - intros [j [H1 [H2 _]]]. exists j. split; [assumption|lia].
      - intros [j [H1 H2]]. exists j. split; [assumption|]. split; [lia|].
        apply Hall. eapply nth_error_In; eassumption. }
    assert (Hh : rb_has_last b = true).
    { apply Hlast. destruct (nth_error segs (length segs - 1)) as [p|] eqn:En.
      - exists p. split; [reflexivity|]. apply Hall. eapply nth_error_In; eassumption.
      - apply nth_error_None in En. lia. }
    split; [assumption|]. split; [assumption|]. rewrite Hexp, E by assumption. now rewrite enum_blen.
  Qed.
  Lemma inv_ready arr b : inv arr (Some b) -> reasm_ready b = true -> all_arrived arr.
  Proof.
    intros Hi Hr. assert (Hi' := Hi). destruct Hi as [Hs [Hin [Hlast Hexp]]].
    unfold reasm_ready in Hr. apply andb_true_iff in Hr as [Hh Hl].
    specialize (Hexp Hh). apply N.eqb_eq in Hl. rewrite Hexp in Hl.
    assert (E : rb_segments b = enum 0 (map snd (rb_segments b))).
    { apply (sorted_full _ 0 (blen segs)); [assumption| |lia]. intros i p H. eapply seg_keys_bound; eassumption. }
    intros p Hp. apply In_nth_error in Hp as [j Hj].
    assert (Hjl : (j < length segs)%nat) by (apply nth_error_Some; congruence).
    destruct (nth_error (map snd (rb_segments b)) j) as [q|] eqn:Eq.
    2:{ apply nth_error_None in Eq. rewrite map_length in Eq. unfold blen in Hl. lia. }
    assert (Hq : In (N.of_nat j, q) (rb_segments b)).
    { rewrite E. apply enum_In. exists j. split; [assumption|lia]. }
    apply Hin in Hq as [j' [H1 [H2 H3]]]. assert (j = j') by lia. subst j'. congruence.
  Qed.

  Lemma step1_incomplete now arr o p :
    inv arr o -> In p segs -> (1 < length segs)%nat -> ~ all_arrived (p :: arr) ->
    exists o', step1 now o p = (o', Ok None) /\ inv (p :: arr) o'.
  Proof.
    intros Hi Hp Hl Hna. apply In_nth_error in Hp as [j Hj].
    assert (Hadd := inv_add now arr o p j Hi Hj).
    unfold step1. destruct (Hseg _ _ Hj) as [_ Hs]. apply extract_of_segment in Hs. rewrite Hs.
    replace ((N.of_nat j =? 0) && Nat.eqb (S j) (length segs)) with false.
    2:{ destruct (Nat.eqb_spec (S j) (length segs)); lia. }
    cbv zeta. destruct (reasm_ready _) eqn:Hr.
    - exfalso. apply Hna. eapply inv_ready; [exact Hadd|exact Hr].
    - cbn [negb]. eexists; split; [reflexivity|exact Hadd].
  Qed.
  Lemma step1_complete now arr o p first others :
    inv arr o -> In p segs -> (1 < length segs)%nat -> all_arrived (p :: arr) -> segs = first :: others ->
    step1 now o p = (None, Ok (Some (joined first others))).
  Proof.
    intros Hi Hp Hl Hna Hfo. apply In_nth_error in Hp as [j Hj].
    assert (Hadd := inv_add now arr o p j Hi Hj).
    unfold step1. destruct (Hseg _ _ Hj) as [_ Hs]. apply extract_of_segment in Hs. rewrite Hs.
    replace ((N.of_nat j =? 0) && Nat.eqb (S j) (length segs)) with false.
    2:{ destruct (Nat.eqb_spec (S j) (length segs)); lia. }
    cbv zeta. destruct (inv_full _ _ Hadd Hna ltac:(lia)) as [H1 [H2 H3]].
    unfold reasm_ready. rewrite H2, H3, N.eqb_refl. cbn [andb negb].
    rewrite (assemble_full first others); [reflexivity| |assumption|assumption]. now rewrite H1, Hfo.
  Qed.
  Lemma run1_incomplete h : forall arr o, inv arr o -> (forall p, In p (map snd h) -> In p segs) ->
    (1 < length segs)%nat -> ~ all_arrived (rev (map snd h) ++ arr) ->
    exists o', run1 o h = (o', repeat (Ok None) (length h)) /\ inv (rev (map snd h) ++ arr) o'.
  Proof.
    induction h as [|[now p] h IH]; intros arr o Hi Hp Hl Hna; cbn [map snd rev run1 length repeat] in *.
    - exists o. auto.
    - rewrite <- app_assoc in Hna |- *. cbn [app] in *.
      destruct (step1_incomplete now arr o p Hi) as [o1 [E1 Hi1]]; [apply Hp; left; reflexivity|assumption| |].
      { intros Hall. apply Hna. intros q Hq. apply in_or_app. right. now apply Hall. }
      destruct (IH (p :: arr) o1 Hi1) as [o2 [E2 Hi2]]; [intros; apply Hp; right; assumption|assumption|assumption|].
      exists o2. rewrite E1, E2. auto.
  Qed.
End OneMessage.

(* Delivery with duplicates: silent until every segment is there. *)
Lemma reassembly_general k segs first others h c c' rs pre now p :
  segs = first :: others -> segmentation k segs -> (1 < length segs)%nat ->
  get k c = None ->
  filter (fun x => has_key k (snd x)) h = pre ++ [(now, p)] ->
  (forall q, In q (map snd (pre ++ [(now, p)])) -> In q segs) ->
  (exists q, In q segs /\ ~ In q (map snd pre)) ->
  (forall q, In q segs -> In q (map snd (pre ++ [(now, p)]))) ->
  run_packets c h = (c', rs) ->
  answers_for k h rs = repeat (Ok None) (length pre) ++ [Ok (Some (joined first others))] /\
  get k c' = None.
Proof.
  intros Hs Hseg Hl Hc Hf Hin [q0 [Hq0 Hq1]] Hall Hrun.
  apply (run_packets_proj k) in Hrun. rewrite Hc, Hf in Hrun.
  assert (Hpre : exists o, run1 None pre = (o, repeat (Ok None) (length pre)) /\ inv segs (rev (map snd pre) ++ []) o).
  { apply (run1_incomplete k segs Hseg).
    - reflexivity.
    - intros q Hq. apply Hin. rewrite map_app. apply in_or_app. auto.
    - assumption.
    - intros Ha. apply Hq1. apply Ha in Hq0. rewrite app_nil_r in Hq0. now apply in_rev. }
  destruct Hpre as [o [E1 Hi]].
  assert (E2 : step1 now o p = (None, Ok (Some (joined first others)))).
  { eapply (step1_complete k segs Hseg); [exact Hi| |assumption| |exact Hs].
    - apply Hin. rewrite map_app. apply in_or_app. right. left. reflexivity.
    - intros q Hq. apply Hall in Hq. rewrite map_app in Hq. rewrite app_nil_r.
      apply in_app_or in Hq as [Hq|[<-|[]]]; [right; now apply in_rev in Hq|left; reflexivity]. }
  assert (Happ : forall a o o1 rs1 b, run1 o a = (o1, rs1) -> run1 o (a ++ b) = (fst (run1 o1 b), rs1 ++ snd (run1 o1 b))).
  { clear. induction a as [|[n p] a IH]; intros o o1 rs1 b H; cbn [run1 app] in *.
    - inversion H; subst. now destruct (run1 o1 b).
    - destruct (step1 n o p) as [o2 r2]. destruct (run1 o2 a) as [o3 rs3] eqn:E3. inversion H; subst.
      erewrite IH by eassumption. reflexivity. }
  rewrite (Happ _ _ _ _ _ E1) in Hrun. cbn [run1] in Hrun. rewrite E2 in Hrun. cbn [fst snd] in Hrun.
  inversion Hrun. auto.
Qed.

Lemma segmentation_NoDup k segs : segmentation k segs -> NoDup segs.
Proof.
  intros H. apply NoDup_nth_error. intros i j Hi He.
  destruct (nth_error segs i) as [p|] eqn:Ei; [|apply nth_error_None in Ei; lia].
  symmetry in He. apply H in Ei as [_ Ei]. apply H in He as [_ He]. rewrite Ei in He. injection He as He _. lia.
Qed.

Lemma reassembly_any_order k segs h c c' rs :
  segmentation k segs -> segs <> [] -> get k c = None ->
  Permutation (packets_for k h) segs ->
  run_packets c h = (c', rs) ->
  exists q, answers_for k h rs = repeat (Ok None) (length segs - 1) ++ [Ok (Some q)] /\
    p_payload q = concat (map p_payload segs) /\ key_of q = k /\
    (forall first, nth_error segs 0 = Some first -> p_media q = p_media first) /\
    ((1 < length segs)%nat -> q = joined (hd q segs) (tl segs)) /\
    get k c' = None.
Proof.
  intros Hseg Hne Hc Hp Hrun.
  assert (Hfm : packets_for k h = map snd (filter (fun x => has_key k (snd x)) h)).
  { unfold packets_for. clear. induction h as [|[n p] h IH]; cbn; [reflexivity|].
    destruct (has_key k p); cbn; now rewrite IH. }
  destruct segs as [|first [|second others]] eqn:Es; [congruence| |].
  - (* a single segment is delivered as is *)
    apply Permutation_sym, Permutation_length_1_inv in Hp. rewrite Hfm in Hp.
    destruct (filter (fun x => has_key k (snd x)) h) as [|[now p] [|? ?]] eqn:Ef; try discriminate.
    cbn in Hp. injection Hp as ->.
    apply (run_packets_proj k) in Hrun. rewrite Hc, Ef in Hrun. cbn [run1] in Hrun.
    destruct (Hseg 0%nat first eq_refl) as [Hk Hs]. apply extract_of_segment in Hs.
    assert (E : step1 now None first = (None, Ok (Some first))) by (unfold step1; rewrite Hs; reflexivity).
    rewrite E in Hrun. inversion Hrun. exists first. cbn [length Nat.sub repeat app map concat].
    rewrite app_nil_r. repeat split; auto. intros f Hf. cbn in Hf. congruence. cbn; lia.
  - set (segs' := first :: second :: others) in *.
    assert (Hnd : NoDup (packets_for k h)) by (eapply Permutation_NoDup; [apply Permutation_sym; exact Hp|eapply segmentation_NoDup; exact Hseg]).
    assert (Hlen := Permutation_length Hp).
    destruct (@exists_last _ (filter (fun x => has_key k (snd x)) h)) as [pre [[now p] Ef]].
    { intros E0. rewrite Hfm, E0 in Hlen. discriminate. }
    rewrite Hfm, Ef, map_app in *. cbn [map snd] in *.
    destruct (reassembly_general k segs' first (second :: others) h c c' rs pre now p) as [H1 H2]; try assumption; try reflexivity.
    + cbn; lia.
    + intros q Hq. rewrite map_app in Hq. eapply Permutation_in; eassumption.
    + exists p. split; [eapply Permutation_in; [exact Hp|]; apply in_or_app; right; left; reflexivity|].
      intros Hi. apply NoDup_remove_2 in Hnd. apply Hnd. rewrite app_nil_r. assumption.
    + intros q Hq. rewrite map_app. eapply Permutation_in; [apply Permutation_sym; exact Hp|exact Hq].
    + exists (joined first (second :: others)).
      rewrite app_length, map_length in Hlen. cbn [length] in Hlen.
      split; [rewrite H1; do 2 f_equal; subst segs'; cbn [length] in *; lia|].
      split; [apply joined_payload|].
      split; [destruct (Hseg 0%nat first eq_refl) as [<- _]; reflexivity|].
      split; [intros f Hf; cbn in Hf; injection Hf as <-; reflexivity|].
      split; [reflexivity|assumption].
Qed.

(* ---- soundness over arbitrary histories ---- *)
Definition seen_ok (seen : list packet) (k : N * N) (b : reasm) : Prop :=
  sorted_from 0 (rb_segments b) /\
  (forall i p, In (i, p) (rb_segments b) -> In p seen /\ key_of p = k /\ exists l, segment_of p = Some (i, l)) /\
  (rb_has_last b = true -> exists p, In p seen /\ key_of p = k /\ segment_of p = Some (rb_expected b - 1, true) /\ 1 <= rb_expected b).
Definition codec_ok (seen : list packet) (c : codec) : Prop :=
  NoDup (mkeys (incomplete c)) /\ forall k b, get k c = Some b -> seen_ok seen k b.
Lemma seen_ok_weaken seen seen' k b : (forall p, In p seen -> In p seen') -> seen_ok seen k b -> seen_ok seen' k b.
Proof.
  intros Hs [H1 [H2 H3]]. split; [assumption|]. split.
  - intros i p Hi. apply H2 in Hi as [? [? ?]]. auto.
  - intros Hh. apply H3 in Hh as [p [? [? ?]]]. exists p. auto.
Qed.

(* What it means for an emitted packet to be justified by [seen]. *)
Definition justified (seen : list packet) (p q : packet) : Prop :=
  (q = p /\ (segment_of p = None \/ segment_of p = Some (0, true))) \/
  (exists xs last, numbered (key_of p) xs /\ (forall x, In x xs -> In x seen) /\
     In last seen /\ key_of last = key_of p /\ segment_of last = Some (blen xs - 1, true) /\
     (0 < length xs)%nat /\
     key_of q = key_of p /\ p_payload q = concat (map p_payload xs)).

Lemma extract_segment_cases p n l : extract_segment_info (p_options p) = Ok (n, l) ->
  (segment_of p = Some (n, l)) \/ (segment_of p = None /\ n = 0 /\ l = true).
Proof.
  unfold extract_segment_info, segment_of.
  destruct (mget opt_code_eqb CSegment (p_options p)) as [[a b|v|t v]|]; intros H; inversion H; auto.
Qed.
Lemma seen_ok_new seen k now : seen_ok seen k (reasm_new now).
Proof. split; [exact I|]. split; [intros ? ? []|discriminate]. Qed.
Lemma seen_ok_add seen k b p n l : seen_ok seen k b -> key_of p = k -> segment_of p = Some (n, l) ->
  seen_ok (p :: seen) k (reasm_add n p l b).
Proof.
  intros [H1 [H2 H3]] Hk Hs. cbn [reasm_add]. split; [apply bt_insert_sorted; [lia|assumption]|].
  split; cbn [rb_segments rb_has_last rb_expected].
  - intros i q Hi. apply (bt_insert_In _ _ _ 0 H1) in Hi as [[-> ->]|[Hn Hi]].
    + split; [left; reflexivity|]. split; [assumption|]. eauto.
    + apply H2 in Hi as [? [? ?]]. split; [right; assumption|auto].
  - destruct l.
    + intros _. cbv iota. exists p. split; [left; reflexivity|]. split; [assumption|]. split; [rewrite Hs; do 2 f_equal|]; cbn [reasm_add rb_expected]; lia.
    + intros Hh. apply H3 in Hh as [q [? [? ?]]]. exists q. split; [right; assumption|auto].
Qed.

Lemma assemble_sound seen b k q : seen_ok seen k b -> reasm_assemble b = Ok q ->
  exists xs last, numbered k xs /\ (forall x, In x xs -> In x seen) /\
     In last seen /\ key_of last = k /\ segment_of last = Some (blen xs - 1, true) /\
     (0 < length xs)%nat /\
     key_of q = k /\ p_payload q = concat (map p_payload xs).
Proof.
  intros [H1 [H2 H3]] Ha. unfold reasm_assemble in Ha.
  destruct (rb_has_last b) eqn:Hh; cbn [negb] in Ha; [|discriminate].
  destruct (N.eqb_spec (rb_expected b) (blen (rb_segments b))) as [He|]; cbn [negb] in Ha; [|discriminate].
  destruct (first_gap 0 (rb_segments b)) eqn:Hg; [discriminate|]. apply first_gap_None in Hg.
  destruct (H3 eq_refl) as [last [Hl1 [Hl2 [Hl3 Hl4]]]].
  exists (map snd (rb_segments b)), last.
  assert (Hnum : numbered k (map snd (rb_segments b)) /\ forall x, In x (map snd (rb_segments b)) -> In x seen).
  { split.
    - intros i p Hi. assert (Hin : In (N.of_nat i, p) (rb_segments b)).
      { rewrite Hg. apply enum_In. exists i. split; [assumption|lia]. }
      apply H2 in Hin as [_ [? ?]]. auto.
    - intros x Hx. apply in_map_iff in Hx as [[i y] [E Hx]]. cbn in E; subst y. apply H2 in Hx. tauto. }
  destruct Hnum as [Hn1 Hn2]. split; [assumption|]. split; [assumption|]. split; [assumption|]. split; [assumption|].
  split; [rewrite blen_map, <- He; assumption|].
  destruct (rb_segments b) as [|[i0 first] others] eqn:Eb; [discriminate|].
  split; [cbn; lia|]. injection Ha as <-.
  split.
  - assert (Hf := Hn1 0%nat first eq_refl). destruct Hf as [<- _]. reflexivity.
  - cbn [p_payload]. rewrite (fold_left_snd (fun acc p => acc ++ p_payload p)).
    apply (joined_payload first (map snd others)).
Qed.

Lemma try_reassemble_sound now seen c p : codec_ok seen c ->
  codec_ok (p :: seen) (fst (try_reassemble now c p)) /\
  (forall q, snd (try_reassemble now c p) = Ok (Some q) -> justified (p :: seen) p q).
Proof.
  intros [Hn Hc].
  assert (Hweak : codec_ok (p :: seen) c).
  { split; [assumption|]. intros k b Hb. eapply seen_ok_weaken; [|apply Hc; exact Hb]. intros; right; assumption. }
  unfold try_reassemble.
  destruct (extract_segment_info (p_options p)) as [[n l]|e| |] eqn:Hx; cbn [fst snd]; try (split; [assumption|discriminate]).
  apply extract_segment_cases in Hx.
  destruct ((n =? 0) && l) eqn:H0; cbn [fst snd].
  - split; [assumption|]. intros q Hq. injection Hq as <-. left. split; [reflexivity|].
    destruct Hx as [Hx|[Hx _]]; [|auto]. right. rewrite Hx. apply andb_true_iff in H0 as [H0 ->]. apply N.eqb_eq in H0 as ->. reflexivity.
  - assert (Hs : segment_of p = Some (n, l)).
    { destruct Hx as [Hx|[Hx [-> ->]]]; [assumption|discriminate]. }
    change (p_publisher p, p_message p) with (key_of p).
    set (cur := match mget msg_key_eqb (key_of p) (incomplete c) with Some b => b | None => reasm_new now end).
    assert (Hcur : seen_ok seen (key_of p) cur).
    { subst cur. destruct (mget msg_key_eqb (key_of p) (incomplete c)) as [b|] eqn:Eg; [now apply Hc|apply seen_ok_new]. }
    clearbody cur. assert (Hadd := seen_ok_add seen (key_of p) cur p n l Hcur eq_refl Hs).
    destruct (negb (reasm_ready (reasm_add n p l cur))); cbn [fst snd].
    + split; [|discriminate]. destruct Hweak as [_ Hw]. split.
      * cbn [incomplete]. now apply (NoDup_mset _ msg_key_eqb_spec).
      * intros k b. unfold get; cbn [incomplete]. rewrite (mget_mset _ msg_key_eqb_spec).
        destruct (msg_key_eqb_spec k (key_of p)) as [->|]; [intros E; injection E as <-; assumption|apply Hw].
    + split.
      * destruct Hweak as [_ Hw]. split; [cbn [incomplete]; now apply (NoDup_mrem _ msg_key_eqb_spec)|].
        intros k b. unfold get; cbn [incomplete]. rewrite (mget_mrem _ msg_key_eqb_spec).
        destruct (msg_key_eqb_spec k (key_of p)) as [->|]; [discriminate|apply Hw].
      * intros q Hq. right. destruct (reasm_assemble (reasm_add n p l cur)) as [q'|e| |] eqn:Ea; try discriminate.
        injection Hq as <-. eapply assemble_sound; eassumption.
Qed.
Lemma codec_cleanup_get now dur c k : NoDup (mkeys (incomplete c)) ->
  get k (codec_cleanup now dur c) =
  match get k c with
  | Some b => if dur <? now - rb_timestamp b then None else Some b
  | None => None
  end.
Proof.
  intros Hn. unfold get, codec_cleanup. cbn [incomplete].
  rewrite (mget_filter _ msg_key_eqb_spec) by assumption.
  destruct (mget msg_key_eqb k (incomplete c)) as [b|]; [|reflexivity]. cbn [snd]. unfold reasm_timed_out.
  destruct (dur <? now - rb_timestamp b); reflexivity.
Qed.
Lemma codec_cleanup_ok seen now dur c : codec_ok seen c -> codec_ok seen (codec_cleanup now dur c).
Proof.
  intros [Hn Hc]. split; [cbn [codec_cleanup incomplete]; now apply NoDup_filter_keys|].
  intros k b. rewrite codec_cleanup_get by assumption. specialize (Hc k).
  destruct (get k c) as [b'|]; [|discriminate]. destruct (_ <? _); [discriminate|]. intros E; injection E as <-. auto.
Qed.
Lemma codec_new_ok seen : codec_ok seen codec_new.
Proof. split; [constructor|]. intros k b H; discriminate. Qed.

(* Every answer of a run is justified by the packets up to that point. *)
Lemma run_events_sound es : forall seen c c' rs, codec_ok seen c -> run_events c es = (c', rs) ->
  length rs = length (arrivals es) /\
  codec_ok (rev (arrivals es) ++ seen) c' /\
  (forall i p q, nth_error (arrivals es) i = Some p -> nth_error rs i = Some (Ok (Some q)) ->
     justified (rev (firstn (S i) (arrivals es)) ++ seen) p q).
Proof.
  induction es as [|[now p|now dur] es IH]; intros seen c c' rs Hc H; cbn [run_events arrivals flat_map app] in *.
  - inversion H; subst. split; [reflexivity|]. split; [exact Hc|]. intros [|i] p q Hp; discriminate.
  - fold (arrivals es). destruct (try_reassemble_sound now seen c p Hc) as [H1 H2].
    destruct (try_reassemble now c p) as [c1 r]. cbn [fst snd] in *.
    destruct (run_events c1 es) as [c2 rs2] eqn:E2. inversion H; subst; clear H.
    apply (IH (p :: seen)) in E2 as [L [Hok Hj]]; [|assumption].
    split; [cbn; lia|]. split; [cbn [rev]; rewrite <- app_assoc; exact Hok|].
    intros [|i] x q Hx Hq; cbn [nth_error firstn] in *.
    + injection Hx as <-. injection Hq as ->. cbn. auto.
    + cbn [rev]. rewrite <- app_assoc. apply Hj; assumption.
  - fold (arrivals es). eapply IH; [|exact H]. now apply codec_cleanup_ok.
Qed.

(* ---- the datagram decoder never panics ---- *)
Lemma reasm_assemble_no_crash n p l b : no_crash (reasm_assemble (reasm_add n p l b)).
Proof.
  unfold reasm_assemble. destruct (negb (rb_has_last _)); [exact I|].
  destruct (negb (_ =? _)); [exact I|]. destruct (first_gap 0 _); [exact I|].
  cbn [reasm_add rb_segments]. destruct (bt_insert n p (rb_segments b)) as [|[? ?] ?] eqn:Eb; [|exact I].
  exfalso. eapply bt_insert_nonempty; eassumption.
Qed.
Lemma try_reassemble_no_crash now c p : forallb canonical_opt (p_options p) = true ->
  no_crash (snd (try_reassemble now c p)).
Proof.
  intros Hc. unfold try_reassemble.
  assert (Hx : exists n l, extract_segment_info (p_options p) = Ok (n, l)).
  { unfold extract_segment_info. destruct (mget opt_code_eqb CSegment (p_options p)) as [o|] eqn:Eg; [|eauto].
    apply (mget_In _ opt_code_eqb_spec) in Eg. rewrite forallb_forall in Hc. apply Hc in Eg.
    unfold canonical_opt in Eg; cbn [fst snd] in Eg. destruct o as [n l|v|t v]; cbn in Eg; try discriminate. eauto. }
  destruct Hx as [n [l ->]]. destruct ((n =? 0) && l); [exact I|]. cbv zeta.
  destruct (negb _); [exact I|]. cbn [snd].
  match goal with |- no_crash match reasm_assemble (reasm_add ?n ?p ?l ?b) with _ => _ end =>
    assert (H := reasm_assemble_no_crash n p l b); destruct (reasm_assemble (reasm_add n p l b)) end; exact I || contradiction.
Qed.

Lemma from_bytes_inv buf p : bytes_ok buf = true -> packet_from_bytes buf = Ok p ->
  exists fb hl b2 b3 rest, buf = fb :: hl :: b2 :: b3 :: rest /\ hl <= be_val [b2; b3] /\ 12 <= hl /\
    be_val [b2; b3] <= blen buf /\
    p_payload p = take (be_val [b2; b3] - hl) (drop hl buf) /\ canonical p.
Proof.
  intros Hok H. unfold packet_from_bytes in H.
  destruct (header_parse (rnew buf)) as [cur [h|e| |]] eqn:Eh; try discriminate.
  apply header_parse_inv in Eh; [|assumption].
  destruct Eh as [fb [hl [b2 [b3 [rest [E1 [E2 [E3 [E4 [E5 [E6 [E7 [C1 [C2 [C3 [C4 C5]]]]]]]]]]]]]]]].
  cbn [rnew rbuf roff] in *. cbv zeta in H. rewrite E6, E7 in H.
  destruct (blen buf <? _) eqn:Hlt in H; [discriminate|]. injection H as <-.
  exists fb, hl, b2, b3, rest. split; [assumption|]. split; [assumption|]. split; [assumption|].
  split; [lia|]. cbn [p_payload]. rewrite N.add_0_l. split; [reflexivity|].
  unfold canonical; cbn [p_media p_publisher p_message p_options p_payload]. repeat split; try assumption.
  apply bytes_ok_take, bytes_ok_drop. assumption.
Qed.

Lemma udp_decode_no_crash now c buf : bytes_ok buf = true ->
  in_message c = false \/ 2 <= blen buf ->
  no_crash (snd (fst (udp_decode now c buf))).
Proof.
  intros Hok Hc. unfold udp_decode, check_len.
  destruct (negb (in_message c) && (blen buf <? 12)) eqn:H0; [exact I|].
  destruct buf as [|fb [|hl rest]].
  - exfalso. rewrite blen_nil in *. destruct Hc as [Hc|Hc]; [rewrite Hc in H0; cbn in H0; discriminate|lia].
  - exfalso. rewrite blen_cons, blen_nil in *. destruct Hc as [Hc|Hc]; [rewrite Hc in H0; cbn in H0; discriminate|lia].
  - set (buf := fb :: hl :: rest) in *. change (index buf 1) with (Some hl). cbv iota.
    destruct (hl <? 12) eqn:Hh; [exact I|]. destruct (blen buf <? hl) eqn:Hl; [exact I|].
    destruct rest as [|b2 [|b3 rest]]; [exfalso; subst buf; rewrite !blen_cons, blen_nil in Hl; lia|exfalso; subst buf; rewrite !blen_cons, blen_nil in Hl; lia|].
    change (index buf 2) with (Some b2). change (index buf 3) with (Some b3). cbv iota zeta.
    destruct (be_val [b2; b3] <? hl) eqn:Hm; [exact I|]. destruct (blen buf <? be_val [b2; b3]) eqn:Hb; [exact I|].
    cbn [incomplete]. destruct (blen buf =? be_val [b2; b3]) eqn:He; cbn [negb]; [|exact I].
    assert (Hfb : no_crash (packet_from_bytes buf)).
    { unfold packet_from_bytes. destruct (safe_header_parse (rnew buf)) as [_ Hs].
      destruct (header_parse (rnew buf)) as [cur [h|e| |]] eqn:Eh; cbn [snd] in Hs; try exact I; try contradiction.
      apply header_parse_inv in Eh; [|exact Hok].
      destruct Eh as [fb' [hl' [b2' [b3' [rest' [E1 [E2 [E3 [E4 [E5 [E6 [E7 _]]]]]]]]]]]].
      cbn [rnew rbuf roff] in *. subst buf. injection E1 as <- <- <- <- <-. cbv zeta. rewrite E6, E7.
      match goal with |- no_crash (if ?x then _ else _) => replace x with false by lia end. exact I. }
    destruct (packet_from_bytes buf) as [p|e| |] eqn:Ep; try exact I; try contradiction.
    apply from_bytes_inv in Ep as [? [? [? [? [? [_ [_ [_ [_ [_ Hcan]]]]]]]]]]; [|exact Hok].
    assert (H := try_reassemble_no_crash now (mkCodec false (incomplete c)) p). 
    destruct (try_reassemble now (mkCodec false (incomplete c)) p) as [c3 r]. cbn [fst snd] in *.
    apply H. apply Hcan.
Qed.
Lemma run_datagrams_no_crash ds : forall c,
  (forall t d, In (t, d) ds -> bytes_ok d = true /\ 2 <= blen d) ->
  exists c' rs, run_datagrams c ds = Ok (c', rs) /\ length rs = length ds.
Proof.
  induction ds as [|[now d] ds IH]; intros c Hd; cbn [run_datagrams].
  - exists c, []. auto.
  - destruct (Hd now d (or_introl eq_refl)) as [Hok Hl].
    assert (Hn := udp_decode_no_crash now c d Hok (or_intror Hl)).
    destruct (udp_decode now c d) as [[c' r] left]. cbn [fst snd] in Hn.
    destruct (IH c') as [c2 [rs [E L]]]; [intros; eapply Hd; right; eassumption|].
    destruct r as [x|e| |]; try contradiction; rewrite E; eexists _, _; (split; [reflexivity|cbn; lia]).
Qed.

(* A datagram that decode consumed without error is laid out as it says. *)
Lemma udp_decode_layout now c buf c' x : bytes_ok buf = true -> buf <> [] ->
  udp_decode now c buf = (c', Ok x, []) ->
  exists p hd fb hl b2 b3 rest, buf = hd ++ p_payload p /\ hd = fb :: hl :: b2 :: b3 :: rest /\
    hl = blen hd /\ be_val [b2; b3] = blen buf /\ canonical p /\
    packet_parse (rnew buf) = (mkR [] (blen buf), Ok p) /\
    (x = Some p \/ segment_of p <> None).
Proof.
  intros Hok Hne H. unfold udp_decode in H.
  destruct (check_len c buf) as [c1 [[[a ml]|]|e| |]] eqn:Ec; try discriminate; try (inversion H; congruence).
  destruct (blen buf =? ml) eqn:El; cbn [negb] in H; [|discriminate].
  assert (Hbv : forall fb hl b2 b3 rest, buf = fb :: hl :: b2 :: b3 :: rest -> be_val [b2; b3] = blen buf).
  { intros fb hl b2 b3 rest E. unfold check_len in Ec.
    assert (I1 : index buf 1 = Some hl) by (rewrite E; reflexivity).
    assert (I2 : index buf 2 = Some b2) by (rewrite E; reflexivity).
    assert (I3 : index buf 3 = Some b3) by (rewrite E; reflexivity).
    rewrite I1, I2, I3 in Ec. destruct (negb (in_message c) && (blen buf <? 12)); [discriminate|].
    destruct (hl <? 12); [discriminate|]. destruct (blen buf <? hl); [discriminate|]. cbv zeta in Ec.
    destruct (_ <? hl); [discriminate|]. destruct (blen buf <? _); [discriminate|]. inversion Ec; subst. lia. }
  destruct (packet_from_bytes buf) as [p|e| |] eqn:Ep; try discriminate.
  assert (Ep' := Ep). apply from_bytes_inv in Ep' as [fb [hl [b2 [b3 [rest [E1 [E2 [E3 [E4 [E5 Hcan]]]]]]]]]]; [|assumption].
  specialize (Hbv _ _ _ _ _ E1).
  assert (Hpl : p_payload p = drop hl buf).
  { rewrite E5. apply take_all. rewrite blen_drop. lia. }
  exists p, (take hl buf), fb, hl, b2, b3, (take (hl - 4) rest).
  split; [rewrite Hpl, take_drop; reflexivity|].
  split.
  { rewrite E1. unfold take. replace (N.to_nat hl) with (4 + N.to_nat (hl - 4))%nat by lia. reflexivity. }
  split; [rewrite blen_take; [reflexivity|lia]|].
  split; [assumption|]. split; [assumption|]. split.
  - unfold packet_from_bytes in Ep. unfold packet_parse, bind at 1.
    destruct (header_parse (rnew buf)) as [cur [h|e| |]] eqn:Eh; try discriminate.
    apply header_parse_inv in Eh; [|exact Hok].
    destruct Eh as [fb' [hl' [b2' [b3' [rest' [F1 [F2 [F3 [F4 [F5 [F6 [F7 _]]]]]]]]]]]].
    cbn [rnew rbuf roff] in *. rewrite E1 in F1. injection F1 as <- <- <- <- <-.
    cbv zeta in Ep. rewrite F6, F7 in Ep. rewrite F7.
    destruct (blen buf <? _) in Ep; [discriminate|]. injection Ep as <-. rewrite N.add_0_l.
    unfold bind, pmap_err, read_bytes. rewrite F5, blen_drop.
    replace (blen buf - hl <? be_val [b2; b3] - hl) with false by lia. cbn [map_err ret].
    rewrite (drop_all (drop hl buf)) by (rewrite blen_drop; lia). rewrite F6.
    replace (0 + hl + (be_val [b2; b3] - hl)) with (blen buf) by lia. reflexivity.
  - destruct (segment_of p) eqn:Es; [right; discriminate|left].
    unfold try_reassemble in H.
    assert (Hx : extract_segment_info (p_options p) = Ok (0, true)).
    { unfold extract_segment_info. unfold segment_of in Es. destruct (mget opt_code_eqb CSegment (p_options p)) as [o|] eqn:Eg; [|reflexivity].
      exfalso. apply (mget_In _ opt_code_eqb_spec) in Eg. destruct Hcan as [_ [_ [_ [Hc _]]]]. rewrite forallb_forall in Hc. apply Hc in Eg.
      unfold canonical_opt in Eg; cbn [fst snd] in Eg. destruct o; cbn in Eg; discriminate. }
    rewrite Hx in H. cbn in H. inversion H; reflexivity.
Qed.

Lemma udp_decode_panic_iff now c buf : bytes_ok buf = true ->
  (snd (fst (udp_decode now c buf)) = Panic <-> in_message c = true /\ blen buf < 2).
Proof.
  intros Hok. split.
  - intros H. destruct (in_message c) eqn:Hi.
    + split; [reflexivity|]. destruct (N.lt_ge_cases (blen buf) 2) as [|Hge]; [assumption|].
      exfalso. assert (Hn := udp_decode_no_crash now c buf Hok (or_intror Hge)). now rewrite H in Hn.
    + exfalso. assert (Hn := udp_decode_no_crash now c buf Hok (or_introl Hi)). now rewrite H in Hn.
  - intros [Hi Hl]. unfold udp_decode, check_len. rewrite Hi. cbn [negb andb].
    destruct buf as [|a [|b buf]]; [reflexivity|reflexivity|]. rewrite !blen_cons in Hl. lia.
Qed.

(* ---- from packets back to datagrams ---- *)
Lemma udp_decode_written now c p bs : canonical p -> packet_write p = Ok bs ->
  udp_decode now c bs =
  (fst (try_reassemble now (mkCodec false (incomplete c)) p),
   snd (try_reassemble now (mkCodec false (incomplete c)) p), []).
Proof.
  intros Hc Hw. assert (Hfb := packet_from_bytes_roundtrip p bs [] Hc Hw). rewrite app_nil_r in Hfb.
  assert (Hlen := packet_write_len p bs Hc Hw).
  assert (Hbytes : exists fb rest, bs = fb :: as_u8 (12 + opts_len (p_options p)) ::
     (as_u16 (packet_len p) / 256) mod 256 :: as_u16 (packet_len p) mod 256 :: rest /\
     12 + opts_len (p_options p) <= 255 /\ packet_len p <= 65535).
  { unfold packet_write in Hw. unfold packet_len.
    destruct (255 <? _) eqn:H1; [discriminate|]. destruct (65535 <? _) eqn:H2; [discriminate|].
    rewrite be_enc_2 in Hw. injection Hw as Hw. rewrite <- Hw. do 2 eexists. split; [reflexivity|lia]. }
  destruct Hbytes as [fb [rest [Eb [Hh Hm]]]].
  assert (I1 : index bs 1 = Some (12 + opts_len (p_options p))).
  { rewrite Eb. cbn [index nth_error]. unfold as_u8. rewrite N.mod_small by lia. reflexivity. }
  assert (I2 : index bs 2 = Some ((packet_len p / 256) mod 256)).
  { rewrite Eb. cbn [index nth_error]. unfold as_u16. rewrite (N.mod_small (packet_len p)) by lia. reflexivity. }
  assert (I3 : index bs 3 = Some (packet_len p mod 256)).
  { rewrite Eb. cbn [index nth_error]. unfold as_u16. rewrite (N.mod_small (packet_len p)) by lia. reflexivity. }
  assert (Hv : be_val [(packet_len p / 256) mod 256; packet_len p mod 256] = packet_len p).
  { rewrite <- be_enc_2, be_val_enc; [reflexivity|cbn; lia]. }
  assert (Hpl : 12 + opts_len (p_options p) <= packet_len p) by (unfold packet_len; lia).
  unfold udp_decode, check_len. rewrite I1, I2, I3, Hv, Hlen.
  replace (packet_len p <? 12) with false by lia. rewrite andb_false_r.
  replace (12 + opts_len (p_options p) <? 12) with false by lia.
  replace (packet_len p <? 12 + opts_len (p_options p)) with false by lia. cbv zeta.
  rewrite N.ltb_irrefl, N.eqb_refl. cbn [negb]. rewrite Hfb.
  destruct (try_reassemble now (mkCodec false (incomplete c)) p). reflexivity.
Qed.

Lemma try_reassemble_in now c p : in_message (fst (try_reassemble now c p)) = in_message c.
Proof.
  unfold try_reassemble. destruct (extract_segment_info (p_options p)) as [[n l]|e| |]; try reflexivity.
  destruct ((n =? 0) && l); [reflexivity|]. cbv zeta. destruct (negb _); reflexivity.
Qed.
Lemma run_datagrams_written h ds : encodes h ds -> forall c, in_message c = false ->
  run_datagrams c ds = Ok (run_packets c h).
Proof.
  induction 1 as [|now p bs h ds Hc Hw He IH]; intros c Hi; cbn [run_datagrams run_packets]; [reflexivity|].
  rewrite (udp_decode_written now c p bs Hc Hw).
  assert (Ec : mkCodec false (incomplete c) = c) by (destruct c; cbn in Hi; subst; reflexivity).
  rewrite Ec. assert (Hn := try_reassemble_no_crash now c p ltac:(apply Hc)).
  assert (Hin := try_reassemble_in now c p).
  destruct (try_reassemble now c p) as [c1 r]. cbn [fst snd] in *.
  rewrite (IH c1) by congruence. destruct (run_packets c1 h) as [c2 rs].
  destruct r; try contradiction; reflexivity.
Qed.
