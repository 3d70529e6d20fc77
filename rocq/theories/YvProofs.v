(* Lemmas about the validation actor's model. *)
From Coq Require Import List NArith Bool Arith Lia Permutation.
Import ListNotations.
From Verif Require Import YvModel YvSpec.

Lemma keqb_eq : forall a b, keqb a b = true <-> a = b.
Proof.
  intros [a1 a2] [b1 b2]. unfold keqb; cbn.
  rewrite andb_true_iff, !N.eqb_eq. split; [intros [-> ->]|intros [= -> ->]]; auto.
Qed.
Lemma keqb_refl : forall a, keqb a a = true.
Proof. intros. apply keqb_eq. reflexivity. Qed.
Lemma keqb_neq : forall a b, a <> b -> keqb a b = false.
Proof.
  intros a b H. destruct (keqb a b) eqn:E; [|reflexivity].
  apply keqb_eq in E. contradiction.
Qed.

Lemma info_eqb_eq : forall a b, info_eqb a b = true <-> a = b.
Proof.
  intros [] []. unfold info_eqb; cbn. rewrite !andb_true_iff, !N.eqb_eq.
  split; [intros [[[-> ->] ->] ->]|intros [= -> -> -> ->]]; auto.
Qed.
Lemma info_eqb_refl : forall a, info_eqb a a = true.
Proof. intros. apply info_eqb_eq. reflexivity. Qed.
Lemma info_eqb_neq : forall a b, info_eqb a b = false -> a <> b.
Proof. intros a b H E. subst. rewrite info_eqb_refl in H. discriminate. Qed.

Lemma lookup_put_same : forall k e m, lookup k (put k e m) = Some e.
Proof. intros. unfold lookup, put. cbn. rewrite keqb_refl. reflexivity. Qed.

Lemma lookup_del_same : forall k m, lookup k (del k m) = None.
Proof.
  intros. unfold lookup, del. induction m as [|[k' e] m IH]; cbn; [reflexivity|].
  destruct (keqb k k') eqn:E; cbn; [exact IH|]. rewrite E. exact IH.
Qed.

Lemma lookup_del_other : forall k k' m,
  k' <> k -> lookup k' (del k m) = lookup k' m.
Proof.
  intros k k' m N. unfold lookup, del.
  induction m as [|[k2 e] m IH]; cbn; [reflexivity|].
  destruct (keqb k k2) eqn:E; cbn.
  - apply keqb_eq in E; subst. rewrite keqb_neq by exact N. exact IH.
  - destruct (keqb k' k2); [reflexivity|exact IH].
Qed.

Lemma lookup_put_other : forall k k' e m,
  k' <> k -> lookup k' (put k e m) = lookup k' m.
Proof.
  intros k k' e m N. unfold lookup, put. cbn. rewrite keqb_neq by exact N.
  apply (lookup_del_other k k' m N).
Qed.

Lemma lookup_in : forall k m e, lookup k m = Some e -> In (k, e) m.
Proof.
  intros k m e. unfold lookup. induction m as [|[k2 e2] m IH]; cbn; [discriminate|].
  destruct (keqb k k2) eqn:E; cbn.
  - intros [= ->]. apply keqb_eq in E; subst. auto.
  - auto.
Qed.

Lemma in_lookup : forall k m e,
  NoDup (map fst m) -> In (k, e) m -> lookup k m = Some e.
Proof.
  intros k m e. unfold lookup. induction m as [|[k2 e2] m IH]; cbn; [easy|].
  intros ND [H|H].
  - injection H as -> ->. rewrite keqb_refl. reflexivity.
  - inversion ND; subst. destruct (keqb k k2) eqn:E.
    + apply keqb_eq in E; subst. exfalso. apply H2.
      apply (in_map fst) in H. exact H.
    + apply IH; assumption.
Qed.

Lemma lookup_none_del : forall k m, lookup k m = None -> del k m = m.
Proof.
  intros k m. unfold lookup, del. induction m as [|[k2 e2] m IH]; cbn; [reflexivity|].
  destruct (keqb k k2) eqn:E; cbn; [discriminate|]. intros H. rewrite IH; auto.
Qed.

Lemma del_keys_incl : forall k m x, In x (map fst (del k m)) -> In x (map fst m) /\ x <> k.
Proof.
  intros k m x H. apply in_map_iff in H as [[k2 e2] [<- H]].
  apply filter_In in H as [H1 H2]. cbn in *. split.
  - apply (in_map fst) in H1. exact H1.
  - intros ->. rewrite keqb_refl in H2. discriminate.
Qed.

Lemma nodup_del : forall k m, NoDup (map fst m) -> NoDup (map fst (del k m)).
Proof.
  intros k m. unfold del. induction m as [|[k2 e2] m IH]; cbn; [auto|].
  intros ND. inversion ND; subst. destruct (keqb k k2); cbn; [auto|].
  constructor; [|auto]. intros H. apply H1.
  apply (del_keys_incl k m) in H. tauto.
Qed.

Lemma nodup_put : forall k e m, NoDup (map fst m) -> NoDup (map fst (put k e m)).
Proof.
  intros k e m ND. unfold put. cbn. constructor; [|apply nodup_del; exact ND].
  intros H. apply del_keys_incl in H. tauto.
Qed.

Definition hm (m : list (N * N * entry)) : list msg := flat_map (fun x => e_held (snd x)) m.

Lemma hm_del : forall k m e, NoDup (map fst m) -> lookup k m = Some e ->
  Permutation (hm m) (e_held e ++ hm (del k m)).
Proof.
  intros k m e. unfold lookup, hm.
  induction m as [|[k2 e2] m IH]; cbn; [discriminate|].
  intros ND. inversion ND; subst. destruct (keqb k k2) eqn:E; cbn.
  - intros [= ->]. apply keqb_eq in E; subst.
    change (filter (fun x => negb (keqb k2 (fst x))) m) with (del k2 m).
    rewrite (lookup_none_del k2 m); [reflexivity|].
    destruct (lookup k2 m) eqn:L; [|reflexivity].
    apply lookup_in in L. apply (in_map fst) in L. contradiction.
  - intros H. rewrite (IH H2 H). rewrite !app_assoc.
    apply Permutation_app_tail, Permutation_app_comm.
Qed.

Lemma peer_total_del : forall ip k m e, NoDup (map fst m) -> lookup k m = Some e ->
  peer_total ip m = (if (fst k =? ip)%N then length (e_held e) else 0) + peer_total ip (del k m).
Proof.
  intros ip k m e. unfold lookup, peer_total.
  induction m as [|[k2 e2] m IH]; cbn; [discriminate|].
  intros ND. inversion ND; subst. destruct (keqb k k2) eqn:E; cbn.
  - intros [= ->]. apply keqb_eq in E; subst.
    change (filter (fun x => negb (keqb k2 (fst x))) m) with (del k2 m).
    rewrite (lookup_none_del k2 m); [reflexivity|].
    destruct (lookup k2 m) eqn:L; [|reflexivity].
    apply lookup_in in L. apply (in_map fst) in L. contradiction.
  - intros H. rewrite (IH H2 H). unfold del. lia.
Qed.

Lemma peer_total_put : forall ip k e m,
  peer_total ip (put k e m) = (if (fst k =? ip)%N then length (e_held e) else 0) + peer_total ip (del k m).
Proof. intros. reflexivity. Qed.

(* ---- the cases of [handle] ---- *)
Section P.
Variable max_sub max_peer : nat.
Variable load : N -> option N.
Variable valid : N -> msg -> bool.
Notation handle := (handle max_sub max_peer valid).
Notation respond := (respond max_sub max_peer load valid).
Notation step := (step max_sub max_peer load valid).
Notation run := (run max_sub max_peer load valid).
Notation cache_packet := (cache_packet max_sub max_peer).
Notation deliver := (deliver valid).

Definition forget (s : st) (k : N * N) (e : entry) : st :=
  mk_st (del k (v_map s)) (v_out s) (v_asks s)
    (n_received s) (n_fail s) (n_invalid s) (n_skip s) (n_drop s)
    (n_sent s) (n_drain s) (v_dropped s) (v_lost s ++ e_held e).

Inductive handled (s : st) (m : msg) : st -> Prop :=
| h_fail : m_body m = Undecodable -> handled s m (undecoded (received s) m)
| h_none : m_body m = NoContents -> handled s m (invalid (received s) m)
| h_deliver id e : of_sub (m_ip m) id m -> lookup (m_ip m, id) (v_map s) = Some e ->
    ~ unversioned m -> (forall i, announces m i -> e_info e = i) ->
    handled s m (deliver (received s) e m)
| h_hold id i a : of_sub (m_ip m) id m -> i_ip i = m_ip m -> i_id i = id ->
    (unversioned m \/ lookup (m_ip m, id) (v_map s) = None) ->
    (forall j, announces m j -> i = j) ->
    handled s m (cache_packet (asked (received s) a) i m)
| h_change i e a : announces m i -> lookup (i_ip i, i_id i) (v_map s) = Some e ->
    e_info e <> i ->
    handled s m (cache_packet (asked (forget (received s) (i_ip i, i_id i) e) a) i m).

Lemma handle_cases : forall s m, handled s m (handle s m).
Proof.
  intros s m. unfold YvModel.handle. destruct (m_body m) as [| |id [[cid rest]|]|id|id] eqn:B.
  - apply h_fail; exact B.
  - apply h_none; exact B.
  - set (i := mk_info (m_ip m) id cid rest).
    assert (A : forall j, announces m j -> i = j).
    { intros [j1 j2 j3 j4] [H1 H2]. cbn in *. rewrite B in H2. injection H2 as -> -> ->.
      unfold i. rewrite H1. reflexivity. }
    assert (Am : announces m i) by (split; cbn; [reflexivity|exact B]).
    assert (O : of_sub (m_ip m) id m) by (split; [reflexivity|unfold names; rewrite B; reflexivity]).
    unfold check_new. cbn [i_ip i_id i]. cbn [v_map received].
    destruct (lookup (m_ip m, id) (v_map s)) as [e|] eqn:L.
    + destruct (info_eqb (e_info e) i) eqn:E.
      * cbn [v_map received]. rewrite L, E. apply info_eqb_eq in E.
        apply (h_deliver s m id e O L).
        -- intros [id' U]. rewrite B in U. discriminate.
        -- intros j J. rewrite E. apply A; exact J.
      * cbn [v_map]. rewrite lookup_del_same.
        apply info_eqb_neq in E.
        apply (h_change s m i e (ByInfo i) Am L E).
    + cbn [v_map received]. rewrite L.
      apply (h_hold s m id i (ByInfo i) O); auto.
  - apply (h_hold s m id); auto.
    + split; [reflexivity|unfold names; rewrite B; reflexivity].
    + left. exists id. exact B.
    + intros j [_ J]. rewrite B in J. discriminate.
  - cbn [v_map received]. destruct (lookup (m_ip m, id) (v_map s)) as [e|] eqn:L.
    + apply (h_deliver s m id e); auto.
      * split; [reflexivity|unfold names; rewrite B; reflexivity].
      * intros [id' U]. rewrite B in U. discriminate.
      * intros j [_ J]. rewrite B in J. discriminate.
    + apply (h_hold s m id); auto.
      * split; [reflexivity|unfold names; rewrite B; reflexivity].
      * intros j [_ J]. rewrite B in J. discriminate.
  - cbn [v_map received]. destruct (lookup (m_ip m, id) (v_map s)) as [e|] eqn:L.
    + apply (h_deliver s m id e); auto.
      * split; [reflexivity|unfold names; rewrite B; reflexivity].
      * intros [id' U]. rewrite B in U. discriminate.
      * intros j [_ J]. rewrite B in J. discriminate.
    + apply (h_hold s m id); auto.
      * split; [reflexivity|unfold names; rewrite B; reflexivity].
      * intros j [_ J]. rewrite B in J. discriminate.
Qed.

(* ---- what cache_packet does ---- *)
Definition entry_or (i : info) (o : option entry) : entry :=
  match o with Some e => e | None => mk_entry None i None [] end.

Inductive cached (s : st) (i : info) (m : msg) : st -> Prop :=
| c_drop s' :
    let e := entry_or i (lookup (m_ip m, i_id i) (v_map s)) in
    max_sub < length (e_held e) \/ max_peer < peer_total (m_ip m) (v_map s) ->
    v_map s' = put (m_ip m, i_id i) e (v_map s) ->
    v_out s' = v_out s -> v_lost s' = v_lost s -> v_dropped s' = v_dropped s ++ [m] ->
    n_received s' = n_received s -> n_fail s' = n_fail s -> n_invalid s' = n_invalid s ->
    n_skip s' = n_skip s -> n_drop s' = S (n_drop s) -> n_sent s' = n_sent s ->
    n_drain s' = n_drain s -> v_asks s' = v_asks s ->
    cached s i m s'
| c_hold s' :
    let e := entry_or i (lookup (m_ip m, i_id i) (v_map s)) in
    length (e_held e) <= max_sub -> peer_total (m_ip m) (v_map s) <= max_peer ->
    v_map s' = put (m_ip m, i_id i)
      (mk_entry (e_content e) (e_info e) (e_ctx e) (e_held e ++ [m])) (v_map s) ->
    v_out s' = v_out s -> v_lost s' = v_lost s -> v_dropped s' = v_dropped s ->
    n_received s' = n_received s -> n_fail s' = n_fail s -> n_invalid s' = n_invalid s ->
    n_skip s' = n_skip s -> n_drop s' = n_drop s -> n_sent s' = n_sent s ->
    n_drain s' = n_drain s -> v_asks s' = v_asks s ->
    cached s i m s'.

Lemma cache_cases : forall s i m, cached s i m (cache_packet s i m).
Proof.
  intros s i m. unfold YvModel.cache_packet.
  fold (entry_or i (lookup (m_ip m, i_id i) (v_map s))).
  match goal with |- context [if ?c then _ else _] => destruct c eqn:E end.
  - apply c_drop; try reflexivity.
    apply orb_true_iff in E as [E|E]; apply Nat.ltb_lt in E; auto.
  - apply orb_false_iff in E as [E1 E2]. apply Nat.ltb_ge in E1, E2.
    apply c_hold; try reflexivity; assumption.
Qed.

(* ---- accounting ---- *)
Definition acc (s : st) : list msg := sent s ++ held s ++ v_lost s ++ v_dropped s.

Definition counters (s : st) : Prop :=
  length (v_dropped s) = n_fail s + n_invalid s + n_drop s /\
  length (v_out s) = n_sent s /\
  length (filter (fun o => match o_cid o with None => true | Some _ => false end) (v_out s))
    = n_skip s.

Lemma perm_mid : forall (A : Type) (x : A) l1 l2, Permutation (l1 ++ x :: l2) (x :: l1 ++ l2).
Proof. intros. symmetry. apply Permutation_middle. Qed.

Lemma cached_acc : forall s i m s', NoDup (map fst (v_map s)) -> cached s i m s' ->
  NoDup (map fst (v_map s')) /\ Permutation (acc s') (m :: acc s) /\
  (counters s -> counters s') /\ n_received s' = n_received s /\ n_drain s' = n_drain s.
Proof.
  intros s i m s' ND C.
  assert (HM : forall e, e = entry_or i (lookup (m_ip m, i_id i) (v_map s)) ->
     Permutation (hm (v_map s)) (e_held e ++ hm (del (m_ip m, i_id i) (v_map s)))).
  { intros e ->. destruct (lookup (m_ip m, i_id i) (v_map s)) eqn:L; cbn [entry_or].
    - apply hm_del; assumption.
    - rewrite lookup_none_del by exact L. reflexivity. }
  destruct C as [s' e Hd HMap H1 H2 H3 H4 H5 H6 H7 H8 H9 H10 H11
                |s' e Hd Hp HMap H1 H2 H3 H4 H5 H6 H7 H8 H9 H10 H11];
    specialize (HM e eq_refl).
  - split; [rewrite HMap; apply nodup_put; exact ND|].
    split; [|split; [|split; assumption]].
    + unfold acc, sent, held. rewrite HMap, H1, H2, H3.
      change (flat_map (fun x => e_held (snd x)) (put (m_ip m, i_id i) e (v_map s)))
        with (e_held e ++ hm (del (m_ip m, i_id i) (v_map s))).
      fold (hm (v_map s)). rewrite <- HM. rewrite !app_assoc. rewrite Permutation_app_comm.
      reflexivity.
    + unfold counters. rewrite H1, H3, H5, H6, H7, H8, H9, app_length. cbn. lia.
  - split; [rewrite HMap; apply nodup_put; exact ND|].
    split; [|split; [|split; assumption]].
    + unfold acc, sent, held. rewrite HMap, H1, H2, H3.
      change (flat_map (fun x => e_held (snd x))
        (put (m_ip m, i_id i) (mk_entry (e_content e) (e_info e) (e_ctx e) (e_held e ++ [m])) (v_map s)))
        with ((e_held e ++ [m]) ++ hm (del (m_ip m, i_id i) (v_map s))).
      fold (hm (v_map s)). rewrite HM. rewrite <- !app_assoc. cbn [app].
      rewrite (app_assoc (map o_msg (v_out s)) (e_held e)).
      rewrite perm_mid. rewrite <- app_assoc. reflexivity.
    + unfold counters. rewrite H1, H3, H5, H6, H7, H8, H9. auto.
Qed.

Lemma deliver_acc : forall s e m,
  v_map (deliver s e m) = v_map s /\ Permutation (acc (deliver s e m)) (m :: acc s) /\
  (counters s -> counters (deliver s e m)) /\
  n_received (deliver s e m) = n_received s /\ n_drain (deliver s e m) = n_drain s.
Proof.
  intros s e m.
  assert (E : forall c i sk, sk = match c with None => 1 | Some _ => 0 end ->
    v_map (emit s c i m sk) = v_map s /\ Permutation (acc (emit s c i m sk)) (m :: acc s) /\
    (counters s -> counters (emit s c i m sk)) /\
    n_received (emit s c i m sk) = n_received s /\ n_drain (emit s c i m sk) = n_drain s).
  { intros c i sk ->. split; [reflexivity|]. split; [|split; [|split; reflexivity]].
    - unfold acc, sent, held, emit. cbn [v_out v_map v_lost v_dropped].
      rewrite map_app. cbn. rewrite <- app_assoc. cbn. apply perm_mid.
    - unfold counters, emit.
      cbn [v_out v_dropped n_fail n_invalid n_drop n_sent n_skip].
      rewrite filter_app, !app_length. intros (A & B & C).
      rewrite A, B, C. destruct c; cbn; lia. }
  assert (I : v_map (invalid s m) = v_map s /\ Permutation (acc (invalid s m)) (m :: acc s) /\
    (counters s -> counters (invalid s m)) /\
    n_received (invalid s m) = n_received s /\ n_drain (invalid s m) = n_drain s).
  { split; [reflexivity|]. split; [|split; [|split; reflexivity]].
    - unfold acc, sent, held, invalid. cbn [v_out v_map v_lost v_dropped].
      rewrite !app_assoc. rewrite Permutation_app_comm. reflexivity.
    - unfold counters, invalid.
      cbn [v_out v_dropped n_fail n_invalid n_drop n_sent n_skip].
      rewrite app_length. cbn. lia. }
  unfold YvModel.deliver. destruct (e_content e) as [c|]; [|apply E; reflexivity].
  destruct (e_ctx e) as [x|]; [|apply E; reflexivity].
  destruct (is_empty (e_info e)); [apply E; reflexivity|].
  destruct (valid x m); [apply E; reflexivity|exact I].
Qed.

Lemma handle_acc : forall s m, NoDup (map fst (v_map s)) ->
  NoDup (map fst (v_map (handle s m))) /\ Permutation (acc (handle s m)) (m :: acc s) /\
  (counters s -> counters (handle s m)) /\
  n_received (handle s m) = S (n_received s) /\ n_drain (handle s m) = n_drain s.
Proof.
  intros s m ND. destruct (handle_cases s m) as [B|B|id e O L NU A|id i a O I1 I2 C A|i e a A L NE].
  - split; [exact ND|]. split; [|split; [|split; reflexivity]].
    + unfold acc, sent, held. cbn. rewrite !app_assoc. rewrite Permutation_app_comm. reflexivity.
    + unfold counters. cbn. rewrite app_length. cbn. lia.
  - split; [exact ND|]. split; [|split; [|split; reflexivity]].
    + unfold acc, sent, held. cbn. rewrite !app_assoc. rewrite Permutation_app_comm. reflexivity.
    + unfold counters. cbn. rewrite app_length. cbn. lia.
  - destruct (deliver_acc (received s) e m) as (M & P & K & R & D).
    rewrite M, R, D. split; [exact ND|]. split; [exact P|]. split; [exact K|]. split; reflexivity.
  - destruct (cached_acc (asked (received s) a) i m _ ND (cache_cases _ i m)) as (M & P & K & R & D).
    split; [exact M|]. split; [exact P|]. split; [exact K|]. split; [exact R|exact D].
  - set (k := (i_ip i, i_id i)) in *.
    assert (ND2 : NoDup (map fst (v_map (asked (forget (received s) k e) a))))
      by (cbn; apply nodup_del; exact ND).
    destruct (cached_acc _ i m _ ND2 (cache_cases _ i m)) as (M & P & K & R & D).
    split; [exact M|]. split; [|split; [exact K|split; [exact R|exact D]]].
    rewrite P. apply perm_skip. unfold acc, sent, held. cbn. apply Permutation_app_head.
    pose proof (hm_del k (v_map s) e ND L) as Q.
    change (flat_map (fun x => e_held (snd x)) (v_map s)) with (hm (v_map s)).
    change (flat_map (fun x => e_held (snd x)) (del k (v_map s))) with (hm (del k (v_map s))).
    rewrite Q. rewrite <- !app_assoc.
    rewrite (app_assoc _ (v_lost s) (e_held e ++ _)).
    rewrite (app_assoc _ (v_lost s) (v_dropped s)).
    apply Permutation_app_swap_app.
Qed.

Notation drain := (fold_left (fun s m => handle (drained s) m)).

Lemma drain_acc : forall l s, NoDup (map fst (v_map s)) ->
  NoDup (map fst (v_map (drain l s))) /\ Permutation (acc (drain l s)) (l ++ acc s) /\
  (counters s -> counters (drain l s)) /\
  n_received (drain l s) = length l + n_received s /\
  n_drain (drain l s) = length l + n_drain s.
Proof.
  induction l as [|m l IH]; intros s ND; cbn [fold_left].
  - split; [exact ND|]. split; [reflexivity|]. auto.
  - destruct (handle_acc (drained s) m ND) as (M & P & K & R & D).
    destruct (IH _ M) as (M' & P' & K' & R' & D').
    split; [exact M'|]. split; [|split; [auto|split]].
    + rewrite P', P. cbn [app]. change (acc (drained s)) with (acc s). apply perm_mid.
    + rewrite R', R. cbn. lia.
    + rewrite D', D. cbn. lia.
Qed.

Definition new_entry (q : resp) : entry :=
  match q_lib q with
  | Some l => mk_entry (q_cid q) (q_info q) (load l) []
  | None => mk_entry None (q_info q) None []
  end.

Definition qkey (q : resp) : N * N := (i_ip (q_info q), i_id (q_info q)).

Lemma respond_eq : forall s q, respond s q =
  match lookup (qkey q) (v_map s) with
  | None => s
  | Some e => drain (e_held e) (with_map s (put (qkey q) (new_entry q) (v_map s)))
  end.
Proof. reflexivity. Qed.

Lemma new_entry_held : forall q, e_held (new_entry q) = [].
Proof. intros q. unfold new_entry. destruct (q_lib q); reflexivity. Qed.
Lemma new_entry_info : forall q, e_info (new_entry q) = q_info q.
Proof. intros q. unfold new_entry. destruct (q_lib q); reflexivity. Qed.

Lemma respond_acc : forall s q, NoDup (map fst (v_map s)) ->
  NoDup (map fst (v_map (respond s q))) /\ Permutation (acc (respond s q)) (acc s) /\
  (counters s -> counters (respond s q)) /\
  n_received (respond s q) + n_drain s = n_received s + n_drain (respond s q).
Proof.
  intros s q ND. rewrite respond_eq.
  destruct (lookup (qkey q) (v_map s)) as [e|] eqn:L; [|split; [exact ND|split; [reflexivity|split; [auto|lia]]]].
  assert (ND2 : NoDup (map fst (v_map (with_map s (put (qkey q) (new_entry q) (v_map s))))))
    by (cbn [v_map with_map]; apply nodup_put; exact ND).
  destruct (drain_acc (e_held e) _ ND2) as (M & P & K & R & D).
  split; [exact M|]. split; [|split; [exact K|rewrite R, D; cbn; lia]].
  rewrite P. unfold acc, sent, held. cbn [v_out v_map v_lost v_dropped with_map].
  change (flat_map (fun x => e_held (snd x)) (put (qkey q) (new_entry q) (v_map s)))
    with (e_held (new_entry q) ++ hm (del (qkey q) (v_map s))).
  rewrite new_entry_held. cbn [app].
  change (flat_map (fun x => e_held (snd x)) (v_map s)) with (hm (v_map s)).
  rewrite (hm_del _ _ _ ND L). rewrite !app_assoc.
  do 2 apply Permutation_app_tail. apply Permutation_app_tail, Permutation_app_comm.
Qed.

Lemma run_app : forall a b, run (a ++ b) = fold_left step b (run a).
Proof. intros. unfold YvModel.run. apply fold_left_app. Qed.

Lemma packets_app : forall a b, packets (a ++ b) = packets a ++ packets b.
Proof. intros. unfold packets. apply flat_map_app. Qed.
Lemma responses_app : forall a b, responses (a ++ b) = responses a ++ responses b.
Proof. intros. unfold responses. apply flat_map_app. Qed.

Lemma run_acc : forall evs,
  NoDup (map fst (v_map (run evs))) /\ Permutation (acc (run evs)) (packets evs) /\
  counters (run evs) /\ n_received (run evs) = length (packets evs) + n_drain (run evs).
Proof.
  induction evs as [|e evs IH] using rev_ind.
  - split; [constructor|]. split; [reflexivity|]. split; [|reflexivity].
    unfold counters. cbn. auto.
  - destruct IH as (M & P & K & R). rewrite run_app, packets_app. cbn [fold_left].
    destruct e as [m|q]; cbn [YvModel.step].
    + destruct (handle_acc (run evs) m M) as (M' & P' & K' & R' & D').
      split; [exact M'|]. split; [|split; [auto|]].
      * rewrite P', P. cbn. apply Permutation_cons_append.
      * rewrite R', D', R, app_length. cbn. lia.
    + destruct (respond_acc (run evs) q M) as (M' & P' & K' & R').
      split; [exact M'|]. cbn. rewrite app_nil_r. split; [|split; [auto|lia]].
      rewrite P'. exact P.
Qed.

(* ---- justification of the table and of the outputs ---- *)
Definition justified (Q : list resp) (c : N) (x : N) (i : info) : Prop :=
  exists q l, In q Q /\ q_cid q = Some c /\ q_info q = i /\ q_lib q = Some l /\ load l = Some x.

Record good (P : list msg) (Q : list resp) (s : st) : Prop := {
  g_key : forall k e, lookup k (v_map s) = Some e -> (i_ip (e_info e), i_id (e_info e)) = k;
  g_ctx : forall k e c x, lookup k (v_map s) = Some e -> e_content e = Some c ->
            e_ctx e = Some x -> justified Q c x (e_info e);
  g_held : forall k e m, lookup k (v_map s) = Some e -> In m (e_held e) ->
            In m P /\ of_sub (fst k) (snd k) m /\ (forall i, announces m i -> e_info e = i);
  g_out : forall o, In o (v_out s) ->
            of_sub (i_ip (o_info o)) (i_id (o_info o)) (o_msg o) /\ In (o_msg o) P /\
            ((exists q, In q Q /\ q_info q = o_info o) \/
             (exists m, In m P /\ announces m (o_info o)) \/
             o_info o = new_empty (i_ip (o_info o)) (i_id (o_info o))) /\
            (forall c, o_cid o = Some c -> is_empty (o_info o) = false /\
               exists x, justified Q c x (o_info o) /\ valid x (o_msg o) = true);
  g_info : forall k e, lookup k (v_map s) = Some e ->
            (exists q, In q Q /\ q_info q = e_info e) \/
            (exists m, In m P /\ announces m (e_info e)) \/
            e_info e = new_empty (fst k) (snd k)
}.

Lemma justified_mono : forall Q Q' c x i, incl Q Q' -> justified Q c x i -> justified Q' c x i.
Proof. intros Q Q' c x i H (q & l & A & B). exists q, l. split; [apply H; exact A|exact B]. Qed.

Lemma good_mono : forall P P' Q Q' s, incl P P' -> incl Q Q' -> good P Q s -> good P' Q' s.
Proof.
  intros P P' Q Q' s HP HQ [A B C D E]. constructor.
  - exact A.
  - intros. eapply justified_mono; [exact HQ|]. eapply B; eauto.
  - intros k e m L I. destruct (C k e m L I) as (X & Y). split; auto.
  - intros o I. destruct (D o I) as (X & Y & Z & W). split; [exact X|]. split; [auto|]. split.
    + destruct Z as [(q & q1 & q2)|[(m & m1 & m2)|Z]]; [left|right; left|right; right; exact Z].
      * exists q; auto.
      * exists m; auto.
    + intros c Hc. destruct (W c Hc) as (W1 & x & W2 & W3). split; [exact W1|].
      exists x. split; [eapply justified_mono; eauto|exact W3].
  - intros k e L. destruct (E k e L) as [(q & q1 & q2)|[(m & m1 & m2)|Z]]; [left|right; left|right; right; exact Z].
    + exists q; auto.
    + exists m; auto.
Qed.

Lemma good_same : forall P Q s s', v_map s' = v_map s -> v_out s' = v_out s -> good P Q s -> good P Q s'.
Proof. intros P Q s s' H1 H2 [A B C D E]. constructor; rewrite ?H1, ?H2; assumption. Qed.

Lemma deliver_good : forall P Q s e m id, good P Q s -> In m P ->
  lookup (m_ip m, id) (v_map s) = Some e -> of_sub (m_ip m) id m -> good P Q (deliver s e m).
Proof.
  intros P Q s e m id G HP L O.
  pose proof (g_key _ _ _ G _ _ L) as KE. injection KE as K1 K2.
  assert (E : forall c sk, (forall c0, c = Some c0 -> is_empty (e_info e) = false /\
               exists x, justified Q c0 x (e_info e) /\ valid x m = true) ->
               good P Q (emit s c (e_info e) m sk)).
  { intros c sk H. constructor.
    - apply (g_key _ _ _ G).
    - apply (g_ctx _ _ _ G).
    - apply (g_held _ _ _ G).
    - intros o I. cbn in I. apply in_app_or in I as [I|[<-|[]]]; [apply (g_out _ _ _ G); exact I|].
      cbn. split; [rewrite K1, K2; exact O|]. split; [exact HP|]. split; [|exact H].
      pose proof (g_info _ _ _ G _ _ L) as GI. cbn in GI. rewrite K1, K2. exact GI.
    - apply (g_info _ _ _ G). }
  assert (I : good P Q (invalid s m)) by (apply (good_same _ _ s); [reflexivity|reflexivity|exact G]).
  unfold YvModel.deliver. destruct (e_content e) as [c|] eqn:C; [|apply E; discriminate].
  destruct (e_ctx e) as [x|] eqn:X; [|apply E; discriminate].
  destruct (is_empty (e_info e)) eqn:EM; [apply E; discriminate|].
  destruct (valid x m) eqn:V; [|exact I].
  apply E. intros c0 [= <-]. split; [reflexivity|]. exists x. split; [|exact V].
  eapply (g_ctx _ _ _ G); eauto.
Qed.

Lemma key_dec : forall a b : N * N, {a = b} + {a <> b}.
Proof. decide equality; apply N.eq_dec. Qed.

(* Replacing one entry by a good one keeps the state good. *)
Lemma put_good : forall P Q s s' k e, good P Q s ->
  v_map s' = put k e (v_map s) -> v_out s' = v_out s ->
  (i_ip (e_info e), i_id (e_info e)) = k ->
  (forall c x, e_content e = Some c -> e_ctx e = Some x -> justified Q c x (e_info e)) ->
  (forall m, In m (e_held e) -> In m P /\ of_sub (fst k) (snd k) m /\ (forall i, announces m i -> e_info e = i)) ->
  ((exists q, In q Q /\ q_info q = e_info e) \/
            (exists m, In m P /\ announces m (e_info e)) \/
            e_info e = new_empty (fst k) (snd k)) ->
  good P Q s'.
Proof.
  intros P Q s s' k e G HM HO K1 K2 K3 K4. constructor; rewrite ?HM, ?HO.
  - intros k' e' L. destruct (key_dec k' k) as [->|N].
    + rewrite lookup_put_same in L. injection L as <-. exact K1.
    + rewrite lookup_put_other in L by exact N. apply (g_key _ _ _ G _ _ L).
  - intros k' e' c x L. destruct (key_dec k' k) as [->|N].
    + rewrite lookup_put_same in L. injection L as <-. apply K2.
    + rewrite lookup_put_other in L by exact N. apply (g_ctx _ _ _ G _ _ _ _ L).
  - intros k' e' m L. destruct (key_dec k' k) as [->|N].
    + rewrite lookup_put_same in L. injection L as <-. apply K3.
    + rewrite lookup_put_other in L by exact N. apply (g_held _ _ _ G _ _ _ L).
  - apply (g_out _ _ _ G).
  - intros k' e' L. destruct (key_dec k' k) as [->|N].
    + rewrite lookup_put_same in L. injection L as <-. exact K4.
    + rewrite lookup_put_other in L by exact N. apply (g_info _ _ _ G _ _ L).
Qed.

Lemma cached_good : forall P Q s i m s', good P Q s -> In m P ->
  of_sub (i_ip i) (i_id i) m ->
  (forall j, announces m j ->
     e_info (entry_or i (lookup (m_ip m, i_id i) (v_map s))) = j) ->
  ((exists m', In m' P /\ announces m' i) \/ i = new_empty (i_ip i) (i_id i)) ->
  cached s i m s' -> good P Q s'.
Proof.
  intros P Q s i m s' G HP O A J C.
  assert (Mi : m_ip m = i_ip i) by (destruct O; assumption).
  set (k := (m_ip m, i_id i)) in *.
  set (e := entry_or i (lookup k (v_map s))) in *.
  assert (K1 : (i_ip (e_info e), i_id (e_info e)) = k).
  { unfold e. destruct (lookup k (v_map s)) eqn:L; cbn.
    - apply (g_key _ _ _ G _ _ L).
    - unfold k. rewrite Mi. reflexivity. }
  assert (K2 : forall c x, e_content e = Some c -> e_ctx e = Some x -> justified Q c x (e_info e)).
  { intros c x. unfold e. destruct (lookup k (v_map s)) eqn:L; cbn.
    - apply (g_ctx _ _ _ G _ _ _ _ L).
    - discriminate. }
  assert (K3 : forall m, In m (e_held e) -> In m P /\ of_sub (fst k) (snd k) m /\ (forall i, announces m i -> e_info e = i)).
  { intros m'. unfold e. destruct (lookup k (v_map s)) eqn:L; cbn.
    - apply (g_held _ _ _ G _ _ _ L).
    - easy. }
  assert (K4 : (exists q, In q Q /\ q_info q = e_info e) \/
            (exists m, In m P /\ announces m (e_info e)) \/
            e_info e = new_empty (fst k) (snd k)).
  { unfold e. destruct (lookup k (v_map s)) eqn:L; cbn [entry_or e_info].
    - apply (g_info _ _ _ G _ _ L).
    - right. unfold k. cbn. rewrite Mi. exact J. }
  destruct C as [s' e0 Hd HMap H1 _ _ _ _ _ _ _ _ _ _|s' e0 Hd Hp HMap H1 _ _ _ _ _ _ _ _ _ _];
    fold k in e0; fold e in e0; subst e0.
  - eapply put_good; [exact G|exact HMap|exact H1|..]; assumption.
  - eapply put_good; [exact G|exact HMap|exact H1|..]; cbn [e_info e_content e_ctx e_held].
    + exact K1.
    + exact K2.
    + intros m' I. apply in_app_or in I as [I|[<-|[]]]; [apply K3; exact I|].
      split; [exact HP|]. split; [|exact A].
      unfold k. cbn. rewrite Mi. exact O.
    + exact K4.
Qed.

Lemma unversioned_ann : forall m i, unversioned m -> ~ announces m i.
Proof. intros m i [id U] [_ A]. rewrite U in A. discriminate. Qed.

Lemma announce_dec : forall m, (exists i, announces m i) \/ (forall i, ~ announces m i).
Proof.
  intros m. destruct (m_body m) as [| |id [[c r]|]|id|id] eqn:B.
  3: { left. exists (mk_info (m_ip m) id c r). split; [reflexivity|exact B]. }
  all: right; intros i [_ A]; rewrite B in A; discriminate.
Qed.


Lemma handle_good : forall P Q s m, good P Q s -> In m P -> good P Q (handle s m).
Proof.
  intros P Q s m G HP.
  destruct (m_body m) as [| |id [[cid rest]|]|id|id] eqn:B.
  - unfold YvModel.handle. rewrite B. apply (good_same _ _ s); [reflexivity|reflexivity|exact G].
  - unfold YvModel.handle. rewrite B. apply (good_same _ _ s); [reflexivity|reflexivity|exact G].
  - set (i := mk_info (m_ip m) id cid rest).
    assert (Am : announces m i) by (split; cbn; [reflexivity|exact B]).
    assert (Au : forall j, announces m j -> i = j).
    { intros [j1 j2 j3 j4] [H1 H2]. cbn in *. rewrite B in H2. injection H2 as -> -> ->.
      unfold i. rewrite H1. reflexivity. }
    assert (O : of_sub (m_ip m) id m) by (split; [reflexivity|unfold names; rewrite B; reflexivity]).
    unfold YvModel.handle. rewrite B. fold i. unfold check_new. cbn [i_ip i_id i]. cbn [v_map received].
    destruct (lookup (m_ip m, id) (v_map s)) as [e|] eqn:L.
    + destruct (info_eqb (e_info e) i) eqn:E.
      * cbn [v_map received]. rewrite L, E.
        apply (deliver_good _ _ (received s) e m id); auto. apply (good_same _ _ s); [reflexivity|reflexivity|exact G].
      * cbn [v_map]. rewrite lookup_del_same.
        assert (G2 : good P Q (asked (forget (received s) (m_ip m, id) e) (ByInfo i))).
        { constructor; cbn [v_map v_out asked forget received].
          - intros k' e' L'. destruct (key_dec k' (m_ip m, id)) as [->|N].
            + rewrite lookup_del_same in L'. discriminate.
            + rewrite lookup_del_other in L' by exact N. apply (g_key _ _ _ G _ _ L').
          - intros k' e' c x L'. destruct (key_dec k' (m_ip m, id)) as [->|N].
            + rewrite lookup_del_same in L'. discriminate.
            + rewrite lookup_del_other in L' by exact N. apply (g_ctx _ _ _ G _ _ _ _ L').
          - intros k' e' m' L'. destruct (key_dec k' (m_ip m, id)) as [->|N].
            + rewrite lookup_del_same in L'. discriminate.
            + rewrite lookup_del_other in L' by exact N. apply (g_held _ _ _ G _ _ _ L').
          - apply (g_out _ _ _ G).
          - intros k' e' L'. destruct (key_dec k' (m_ip m, id)) as [->|N].
            + rewrite lookup_del_same in L'. discriminate.
            + rewrite lookup_del_other in L' by exact N. apply (g_info _ _ _ G _ _ L'). }
        eapply (cached_good P Q _ i m); [exact G2|exact HP|exact O| | |apply cache_cases].
        -- intros j Aj. cbn [v_map asked forget i_id i]. rewrite lookup_del_same. cbn. apply Au; exact Aj.
        -- left. exists m. split; assumption.
    + cbn [v_map received]. rewrite L.
      eapply (cached_good P Q (asked (received s) (ByInfo i)) i m); [|exact HP|exact O| | |apply cache_cases].
      * apply (good_same _ _ s); [reflexivity|reflexivity|exact G].
      * intros j Aj. cbn [v_map asked received i_id i]. rewrite L. cbn. apply Au; exact Aj.
      * left. exists m. split; assumption.
  - unfold YvModel.handle. rewrite B.
    eapply (cached_good P Q (asked (received s) (ById (m_ip m) id)) (new_empty (m_ip m) id) m);
      [|exact HP|split; [reflexivity|unfold names; rewrite B; reflexivity]| | |apply cache_cases].
    + apply (good_same _ _ s); [reflexivity|reflexivity|exact G].
    + intros j [_ Aj]. rewrite B in Aj. discriminate.
    + right. reflexivity.
  - unfold YvModel.handle. rewrite B. cbn [v_map received].
    assert (O : of_sub (m_ip m) id m) by (split; [reflexivity|unfold names; rewrite B; reflexivity]).
    destruct (lookup (m_ip m, id) (v_map s)) as [e|] eqn:L.
    + apply (deliver_good _ _ (received s) e m id); auto. apply (good_same _ _ s); [reflexivity|reflexivity|exact G].
    + eapply (cached_good P Q (asked (received s) (ById (m_ip m) id)) (new_empty (m_ip m) id) m);
        [|exact HP|exact O| | |apply cache_cases].
      * apply (good_same _ _ s); [reflexivity|reflexivity|exact G].
      * intros j [_ Aj]. rewrite B in Aj. discriminate.
      * right. reflexivity.
  - unfold YvModel.handle. rewrite B. cbn [v_map received].
    assert (O : of_sub (m_ip m) id m) by (split; [reflexivity|unfold names; rewrite B; reflexivity]).
    destruct (lookup (m_ip m, id) (v_map s)) as [e|] eqn:L.
    + apply (deliver_good _ _ (received s) e m id); auto. apply (good_same _ _ s); [reflexivity|reflexivity|exact G].
    + eapply (cached_good P Q (asked (received s) (ById (m_ip m) id)) (new_empty (m_ip m) id) m);
        [|exact HP|exact O| | |apply cache_cases].
      * apply (good_same _ _ s); [reflexivity|reflexivity|exact G].
      * intros j [_ Aj]. rewrite B in Aj. discriminate.
      * right. reflexivity.
Qed.

Lemma drain_good : forall P Q l s, good P Q s -> incl l P -> good P Q (drain l s).
Proof.
  intros P Q. induction l as [|m l IH]; intros s G I; cbn [fold_left]; [exact G|].
  apply IH.
  - apply handle_good; [apply (good_same _ _ s); [reflexivity|reflexivity|exact G]|apply I; left; reflexivity].
  - intros x X. apply I. right. exact X.
Qed.

Lemma respond_good : forall P Q s q, good P Q s -> In q Q -> good P Q (respond s q).
Proof.
  intros P Q s q G HQ. rewrite respond_eq.
  destruct (lookup (qkey q) (v_map s)) as [e|] eqn:L; [|exact G].
  apply drain_good.
  - eapply put_good; [exact G|reflexivity|reflexivity|..].
    + rewrite new_entry_info. reflexivity.
    + intros c x. unfold new_entry. destruct (q_lib q) as [l|] eqn:E; cbn; [|discriminate].
      intros H1 H2. exists q, l. auto.
    + rewrite new_entry_held. easy.
    + left. exists q. rewrite new_entry_info. auto.
  - intros m I. apply (g_held _ _ _ G _ _ _ L I).
Qed.

Lemma run_good : forall evs, good (packets evs) (responses evs) (run evs).
Proof.
  induction evs as [|e evs IH] using rev_ind.
  - constructor; cbn; try discriminate; easy.
  - rewrite run_app, packets_app, responses_app. cbn [fold_left].
    assert (G : good (packets evs ++ packets [e]) (responses evs ++ responses [e]) (run evs)).
    { eapply good_mono; [| |exact IH]; intros x X; apply in_or_app; auto. }
    destruct e as [m|q]; cbn [YvModel.step].
    + apply handle_good; [exact G|]. apply in_or_app. right. left. reflexivity.
    + apply respond_good; [exact G|]. apply in_or_app. right. left. reflexivity.
Qed.
End P.
