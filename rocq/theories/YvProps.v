(* Properties C167-C177: the YANG-Push validation actor. *)
From Coq Require Import List NArith Bool Arith Lia Permutation.
Import ListNotations.
From Verif Require Import YvModel YvSpec YvProofs YvProofs2.

Section Props.
Variable max_sub max_peer : nat.
Variable load : N -> option N.
Variable valid : N -> msg -> bool.
Notation run := (run max_sub max_peer load valid).

(* C167: a packet sent on with a content id was accepted by the schema that a
   cache response for exactly the attached subscription delivered under that
   id; and every packet sent on is a received one, attached to a subscription
   of its own peer and id. *)
Theorem C167_label_means_validated :
  forall evs o c, In o (v_out (run evs)) -> o_cid o = Some c ->
  exists q lib ctx,
    In q (responses evs) /\ q_cid q = Some c /\ q_info q = o_info o /\
    q_lib q = Some lib /\ load lib = Some ctx /\ valid ctx (o_msg o) = true.
Proof.
  intros evs o c I C.
  destruct (g_out _ _ _ _ _ (run_good max_sub max_peer load valid evs) o I) as (_ & _ & _ & W).
  destruct (W c C) as (_ & x & (q & l & H1 & H2 & H3 & H4 & H5) & V).
  exists q, l, x. auto 8.
Qed.

Theorem C167_own_subscription :
  forall evs o, In o (v_out (run evs)) ->
  In (o_msg o) (packets evs) /\
  of_sub (i_ip (o_info o)) (i_id (o_info o)) (o_msg o) /\
  ((exists q, In q (responses evs) /\ q_info q = o_info o) \/
   (exists a, In a (packets evs) /\ announces a (o_info o)) \/
   (i_cid (o_info o) = 0%N /\ i_rest (o_info o) = 0%N)).
Proof.
  intros evs o I.
  destruct (g_out _ _ _ _ _ (run_good max_sub max_peer load valid evs) o I) as (A & B & C & _).
  split; [exact B|]. split; [exact A|].
  destruct C as [C|[C|C]]; [left; exact C|right; left; exact C|right; right].
  rewrite C. split; reflexivity.
Qed.

(* C168: once the cache has answered for a subscription with a schema, and
   while its description stays the same and no other answer comes, every
   packet of the subscription is sent on, labelled, exactly if the schema
   accepts it, and otherwise counted as invalid. *)
Theorem C168_validated_once_known :
  forall pre q mid m c lib ctx,
  let i := q_info q in
  (exists m0, In m0 (packets pre) /\ of_sub (i_ip i) (i_id i) m0) ->
  q_cid q = Some c -> q_lib q = Some lib -> load lib = Some ctx -> i_cid i <> 0%N ->
  (forall a j, In a (packets (pre ++ mid)) \/ a = m -> announces a j ->
     i_ip j = i_ip i -> i_id j = i_id i -> j = i) ->
  (forall q', In q' (responses mid) -> ~ about (i_ip i) (i_id i) q') ->
  of_sub (i_ip i) (i_id i) m -> ~ unversioned m ->
  let s := run (pre ++ Response q :: mid) in
  let s' := run (pre ++ Response q :: mid ++ [Packet m]) in
  if valid ctx m
  then v_out s' = v_out s ++ [mk_out (Some c) i m] /\ n_invalid s' = n_invalid s
  else v_out s' = v_out s /\ n_invalid s' = S (n_invalid s).
Proof.
  intros pre q mid m c lib ctx i T Hc Hl Hx NE A R O NU.
  assert (F0 : fixed (qkey q) (Some c) (Some ctx) i (run (pre ++ [Response q]))).
  { rewrite run_app. cbn [fold_left step].
    assert (E : new_entry load q = mk_entry (Some c) i (Some ctx) []).
    { unfold new_entry. rewrite Hl, Hc, Hx. reflexivity. }
    pose proof (respond_fixes max_sub max_peer load valid _ _ _ q
      (run_good max_sub max_peer load valid pre)) as RF.
    rewrite E in RF. apply RF.
    - apply run_tracked. exact T.
    - intros a j I J K. injection K as K1 K2. apply (A a j); [|exact J|exact K1|exact K2].
      left. rewrite packets_app. apply in_or_app. auto. }
  assert (F : fixed (qkey q) (Some c) (Some ctx) i (run (pre ++ Response q :: mid))).
  { replace (pre ++ Response q :: mid) with ((pre ++ [Response q]) ++ mid)
      by (rewrite <- app_assoc; reflexivity).
    apply steps_fixed; [exact F0| |].
    - intros a j I J K. injection K as K1 K2. apply (A a j); [|exact J|exact K1|exact K2].
      left. rewrite packets_app. apply in_or_app. auto.
    - intros q' I K. apply (R q' I). unfold qkey in K. injection K as K1 K2. split; assumption. }
  intros s s'.
  assert (S' : s' = handle max_sub max_peer valid s m).
  { unfold s', s. replace (pre ++ Response q :: mid ++ [Packet m])
      with ((pre ++ Response q :: mid) ++ [Packet m])
      by (rewrite <- app_assoc; reflexivity).
    rewrite run_app. reflexivity. }
  destruct F as [h L]. destruct O as [O1 O2].
  rewrite S'. rewrite (handle_deliver max_sub max_peer valid s m (i_id i) (mk_entry (Some c) i (Some ctx) h)).
  - unfold deliver. cbn [e_content e_ctx e_info]. unfold is_empty.
    rewrite (proj2 (N.eqb_neq _ _) NE). destruct (valid ctx m); split; reflexivity.
  - split; [reflexivity|exact O2].
  - rewrite O1. exact L.
  - exact NU.
  - cbn. intros j J. symmetry. pose proof J as [J1 J2]. apply (A m j); [right; reflexivity|exact J| |].
    + congruence.
    + unfold names in O2. rewrite J2 in O2. injection O2 as O2. exact O2.
Qed.

(* C169: every packet is sent on, still held, dropped and counted, or lost
   together with a changed subscription; the last needs an announcement of
   its subscription. *)
Theorem C169_accounting :
  forall evs,
  exists lost dropped,
    Permutation (packets evs) (sent (run evs) ++ held (run evs) ++ lost ++ dropped) /\
    length dropped = n_fail (run evs) + n_invalid (run evs) + n_drop (run evs) /\
    length (sent (run evs)) = n_sent (run evs) /\
    length (filter (fun o => match o_cid o with None => true | Some _ => false end)
              (v_out (run evs))) = n_skip (run evs) /\
    n_received (run evs) = length (packets evs) + n_drain (run evs) /\
    (forall m, In m lost -> exists a i, In a (packets evs) /\ announces a i /\
                                        of_sub (i_ip i) (i_id i) m).
Proof.
  intros evs. destruct (run_acc max_sub max_peer load valid evs) as (_ & P & (K1 & K2 & K3) & R).
  exists (v_lost (run evs)), (v_dropped (run evs)).
  split; [symmetry; exact P|]. split; [exact K1|]. split; [unfold sent; rewrite map_length; exact K2|].
  split; [exact K3|]. split; [exact R|].
  intros m I. apply (run_lost max_sub max_peer load valid evs m I).
Qed.

(* With a router that announces first and never changes a description, and a
   cache that answers accordingly, nothing is lost silently. *)
Theorem C169_nothing_lost_when_orderly :
  forall D evs, orderly D evs ->
  exists dropped,
    Permutation (packets evs) (sent (run evs) ++ held (run evs) ++ dropped) /\
    length dropped = n_fail (run evs) + n_invalid (run evs) + n_drop (run evs).
Proof.
  intros D evs O. destruct (run_acc max_sub max_peer load valid evs) as (_ & P & (K1 & _) & _).
  destruct (run_agreed max_sub max_peer load valid D evs O) as [L _].
  exists (v_dropped (run evs)). split; [|exact K1].
  unfold acc in P. rewrite L in P. symmetry. exact P.
Qed.

(* C170: what is held is bounded, by one more than the configured limits. *)
Theorem C170_held_bounded :
  forall evs ip id,
  length (held_sub ip id (run evs)) <= max_sub + 1 /\
  length (held_peer ip (run evs)) <= max_peer + 1.
Proof.
  intros evs ip id. destruct (run_bounded max_sub max_peer load valid evs) as [B1 B2].
  destruct (run_acc max_sub max_peer load valid evs) as (ND & _).
  rewrite held_peer_total, held_sub_lookup by exact ND. split.
  - destruct (lookup (ip, id) (v_map (run evs))) as [e|] eqn:L; [|cbn; lia].
    specialize (B1 _ _ L). lia.
  - specialize (B2 ip). lia.
Qed.

(* C171: the first packet of a subscription waits for the cache's answer: one
   lookup is sent for it, and it is not sent on before an answer for that
   subscription arrives. *)
Theorem C171_first_packet_waits_partial :
  forall pre m id mid,
  of_sub (m_ip m) id m ->
  (forall m0, In m0 (packets pre) -> ~ of_sub (m_ip m) id m0) ->
  ~ In m (packets mid) ->
  (forall q, In q (responses mid) -> ~ about (m_ip m) id q) ->
  ~ In m (sent (run (pre ++ Packet m :: mid))) /\
  exists a, v_asks (run (pre ++ [Packet m])) = v_asks (run pre) ++ [a].
Proof.
  intros pre m id mid O F NP R.
  assert (L : lookup (m_ip m, id) (v_map (run pre)) = None).
  { destruct (lookup (m_ip m, id) (v_map (run pre))) as [e|] eqn:L; [|reflexivity].
    exfalso. destruct (proj1 (run_tracked max_sub max_peer load valid pre (m_ip m) id)) as (m0 & I & X).
    - rewrite L. discriminate.
    - apply (F m0 I X). }
  destruct (handle_first max_sub max_peer valid (run pre) m id O L) as [H1 H2].
  split.
  - replace (pre ++ Packet m :: mid) with ((pre ++ [Packet m]) ++ mid) by (rewrite <- app_assoc; reflexivity).
    apply (steps_unsent max_sub max_peer load valid m id mid (pre ++ [Packet m]) O); auto.
    rewrite run_app. cbn [fold_left step]. unfold sent. rewrite H1.
    intros I. apply in_map_iff in I as (o & E & I).
    destruct (g_out _ _ _ _ _ (run_good max_sub max_peer load valid pre) o I) as (_ & X & _).
    rewrite E in X. apply (F m X O).
  - rewrite run_app. cbn [fold_left step]. exact H2.
Qed.

(* C172: when the cache answers for a subscription whose announcements all
   carry a module version and the description of the answer, none of its
   packets is left waiting. *)
Theorem C172_answer_releases_partial :
  forall evs q,
  let i := q_info q in
  (exists m0, In m0 (packets evs) /\ of_sub (i_ip i) (i_id i) m0) ->
  (forall m, In m (packets evs) -> of_sub (i_ip i) (i_id i) m ->
     ~ unversioned m /\ (forall j, announces m j -> j = i)) ->
  held_sub (i_ip i) (i_id i) (run (evs ++ [Response q])) = [].
Proof.
  intros evs q i T A.
  destruct (run_acc max_sub max_peer load valid (evs ++ [Response q])) as (ND & _).
  rewrite held_sub_lookup by exact ND. rewrite run_app. cbn [fold_left step].
  pose proof (respond_settles max_sub max_peer load valid _ _ _ q
    (run_good max_sub max_peer load valid evs)) as RS.
  unfold settled, qkey in RS. cbn [fst snd] in RS. unfold i. rewrite RS; [reflexivity| |exact A].
  apply run_tracked. exact T.
Qed.

(* C173: after an announcement, packets of that subscription carry its
   description as long as later announcements and answers agree with it. *)
Theorem C173_newest_description_partial :
  forall pre a i mid m,
  announces a i ->
  (forall b j, In b (packets mid) -> announces b j -> i_ip j = i_ip i -> i_id j = i_id i -> j = i) ->
  (forall q, In q (responses mid) -> about (i_ip i) (i_id i) q -> q_info q = i) ->
  of_sub (i_ip i) (i_id i) m -> ~ unversioned m -> (forall j, announces m j -> j = i) ->
  let s := run (pre ++ Packet a :: mid) in
  let s' := run (pre ++ Packet a :: mid ++ [Packet m]) in
  (exists c, v_out s' = v_out s ++ [mk_out c i m]) \/
  (v_out s' = v_out s /\ n_invalid s' = S (n_invalid s)).
Proof.
  intros pre a i mid m A H R [O1 O2] NU AM s s'.
  assert (D : described (i_ip i, i_id i) i s).
  { unfold s. replace (pre ++ Packet a :: mid) with ((pre ++ [Packet a]) ++ mid) by (rewrite <- app_assoc; reflexivity).
    apply steps_described.
    - rewrite run_app. cbn [fold_left step]. apply announce_described. exact A.
    - intros b j I J K. injection K as K1 K2. eapply H; eauto.
    - intros q I K. unfold qkey in K. injection K as K1 K2. apply R; [exact I|split; assumption]. }
  assert (S' : s' = handle max_sub max_peer valid s m).
  { unfold s', s. replace (pre ++ Packet a :: mid ++ [Packet m])
      with ((pre ++ Packet a :: mid) ++ [Packet m]) by (rewrite <- app_assoc; reflexivity).
    rewrite run_app. reflexivity. }
  destruct D as (e & L & E).
  rewrite S'. rewrite (handle_deliver max_sub max_peer valid s m (i_id i) e).
  - unfold deliver. rewrite E.
    destruct (e_content e); [|left; eexists; reflexivity].
    destruct (e_ctx e); [|left; eexists; reflexivity].
    destruct (is_empty i); [left; eexists; reflexivity|].
    destruct (valid _ m); [left; eexists; reflexivity|right; split; reflexivity].
  - split; [reflexivity|exact O2].
  - rewrite O1. exact L.
  - exact NU.
  - intros j J. rewrite E. symmetry. apply AM. exact J.
Qed.

(* C174: what is sent on for a peer depends on that peer's packets and on the
   answers about its subscriptions only. *)
Theorem C174_peers_independent :
  forall evs ip,
  out_of ip (run evs) = out_of ip (run (filter (concerns ip) evs)) /\
  Permutation (held_peer ip (run evs)) (held_peer ip (run (filter (concerns ip) evs))).
Proof.
  intros evs ip. destruct (run_view max_sub max_peer load valid ip evs) as [V1 V2].
  split; [exact V2|].
  assert (HP : forall s, held_peer ip s = flat_map (fun x => e_held (snd x)) (pmap ip (v_map s))).
  { intros s. unfold held_peer, pmap. induction (v_map s) as [|x m IH]; cbn; [reflexivity|].
    rewrite IH. destruct (_ =? ip)%N; reflexivity. }
  rewrite !HP, V1. reflexivity.
Qed.

(* C175: the loop serves packets before answers. While packets keep coming no
   answer is processed, whatever waits; once they stop, everything waiting is
   processed, packets first and both in order. *)
Theorem C175_answers_starve_refuted :
  forall l a, (forall x, In x a -> fst x <> []) ->
  l_cache (rounds max_sub max_peer load valid l a) = l_cache l ++ flat_map snd a.
Proof. intros l a. apply rounds_starve. Qed.

Theorem C175_quiet_drains_partial :
  forall rx qs evs,
  rounds max_sub max_peer load valid (mk_loop rx qs (run evs))
    (repeat ([], []) (length rx + length qs)) =
  mk_loop [] [] (run (evs ++ map Packet rx ++ map Response qs)).
Proof.
  intros rx qs evs. rewrite run_app. apply rounds_quiet. reflexivity.
Qed.

(* C176: the subscriptions with a record are those that any packet ever
   named; a subscription-terminated does not end the record. *)
Theorem C176_tracked_iff_seen :
  forall evs ip id,
  In (ip, id) (tracked (run evs)) <->
  exists m, In m (packets evs) /\ of_sub ip id m.
Proof. intros evs ip id. rewrite tracked_lookup. apply run_tracked. Qed.

Theorem C176_one_record_each : forall evs, NoDup (tracked (run evs)).
Proof. intros evs. apply (run_acc max_sub max_peer load valid evs). Qed.

Theorem C176_ended_is_forgotten_refuted :
  forall evs m id, m_body m = Ended id ->
  In (m_ip m, id) (tracked (run (evs ++ [Packet m]))).
Proof.
  intros evs m id B. apply C176_tracked_iff_seen. exists m. split.
  - rewrite packets_app. apply in_or_app. right. left. reflexivity.
  - split; [reflexivity|]. unfold names. rewrite B. reflexivity.
Qed.

(* C172: an announcement without a module version is looked up and held again
   at every answer, for ever. *)
Theorem C172_unversioned_never_ends_refuted :
  forall ip id pay q n, q_info q = mk_info ip id 1 1 ->
  let m := mk_msg ip (Started id None) pay in
  let s := run (Packet m :: repeat (Response q) n) in
  sent s = [] /\ held s = [m] /\ length (v_asks s) = S n /\ n_received s = S n.
Proof.
  intros ip id pay q n Q m s.
  assert (I : v_out s = [] /\ (exists e, v_map s = [((ip, id), e)] /\ e_held e = [m]) /\
              length (v_asks s) = S n /\ n_received s = S n).
  { unfold s. clear s. induction n as [|n IH].
    - cbn. unfold keqb. cbn. split; [reflexivity|]. split; [|auto].
      eexists. split; reflexivity.
    - assert (E : run (Packet m :: repeat (Response q) (S n)) =
        respond max_sub max_peer load valid (run (Packet m :: repeat (Response q) n)) q).
      { replace (repeat (Response q) (S n)) with (repeat (Response q) n ++ [Response q])
          by (symmetry; apply repeat_cons).
        rewrite app_comm_cons, run_app. reflexivity. }
      destruct IH as (H1 & (e & H2 & H3) & H4 & H5).
      rewrite E. clear E. revert H1 H2 H4 H5. generalize (run (Packet m :: repeat (Response q) n)).
      intros s H1 H2 H4 H5. rewrite respond_eq. unfold qkey. rewrite Q. cbn [i_ip i_id].
      assert (K : keqb (ip, id) (ip, id) = true) by apply keqb_refl.
      assert (LK : lookup (ip, id) (v_map s) = Some e)
        by (rewrite H2; unfold lookup; cbn [find fst]; rewrite K; reflexivity).
      rewrite LK, H3. cbn [fold_left].
      set (s1 := drained (with_map s (put (ip, id) (new_entry load q) (v_map s)))).
      assert (M1 : v_map s1 = [((ip, id), new_entry load q)]).
      { unfold s1. cbn [v_map drained with_map]. rewrite H2. unfold put, del.
        cbn [filter fst]. rewrite K. reflexivity. }
      assert (L1 : lookup (ip, id) (v_map s1) = Some (new_entry load q))
        by (rewrite M1; unfold lookup; cbn [find fst]; rewrite K; reflexivity).
      assert (T1 : peer_total ip (v_map s1) = 0).
      { rewrite M1. unfold peer_total. cbn [fold_right fst snd]. rewrite new_entry_held.
        destruct (_ =? _)%N; reflexivity. }
      change (handle max_sub max_peer valid s1 m) with
        (cache_packet max_sub max_peer (asked (received s1) (ById ip id)) (new_empty ip id) m).
      destruct (cache_cases max_sub max_peer (asked (received s1) (ById ip id)) (new_empty ip id) m)
        as [s' e0 Hd HMap X1 X2 X3 X4 X5 X6 X7 X8 X9 X10 X11
           |s' e0 Hd Hp HMap X1 X2 X3 X4 X5 X6 X7 X8 X9 X10 X11];
        unfold e0 in *; clear e0; cbn [m_ip m i_id new_empty v_map asked received] in *;
        rewrite L1 in *; cbn [entry_or] in *; rewrite new_entry_held in *; rewrite ?T1 in *.
      + exfalso. cbn in Hd. lia.
      + split; [rewrite X1; exact H1|]. split; [|split].
        * eexists. split; [rewrite HMap, M1; unfold put, del; cbn [filter fst]; rewrite K; reflexivity|reflexivity].
        * rewrite X11. cbn [v_asks asked received s1 drained with_map]. rewrite app_length, H4. cbn. lia.
        * rewrite X4. cbn [n_received asked received s1 drained with_map]. rewrite H5. reflexivity. }
  destruct I as (H1 & (e & H2 & H3) & H4 & H5).
  split; [unfold sent; rewrite H1; reflexivity|]. split; [|split; assumption].
  unfold held. rewrite H2. cbn. rewrite H3. reflexivity.
Qed.

End Props.
Print Assumptions C167_label_means_validated.
Print Assumptions C167_own_subscription.
Print Assumptions C168_validated_once_known.
Print Assumptions C169_accounting.
Print Assumptions C169_nothing_lost_when_orderly.
Print Assumptions C170_held_bounded.
Print Assumptions C171_first_packet_waits_partial.
Print Assumptions C172_answer_releases_partial.
Print Assumptions C173_newest_description_partial.
Print Assumptions C174_peers_independent.
Print Assumptions C175_answers_starve_refuted.
Print Assumptions C175_quiet_drains_partial.
Print Assumptions C176_tracked_iff_seen.
Print Assumptions C176_one_record_each.
Print Assumptions C176_ended_is_forgotten_refuted.
Print Assumptions C172_unversioned_never_ends_refuted.

(* ---- refutations on concrete histories, for every limit ---- *)

Definition yes (x : N) (m : msg) : bool := true.
Definition no (x : N) (m : msg) : bool := false.
Definition ok (l : N) : option N := Some l.
Definition d1 : msg := mk_msg 1 (Data 5) 10.
Definition d2 : msg := mk_msg 1 (Data 5) 20.
Definition ann (c : N) : msg := mk_msg 1 (Started 5 (Some (c, 1%N))) 30.
Definition inf (c : N) : info := mk_info 1 5 c 1.
Definition ans (c : N) : resp := mk_resp (Some c) (inf c) (Some c).

(* C168: a router that announces the content id "EMPTY" (written 0) switches
   validation off: the schema is known and rejects, and the packet is sent. *)
Theorem C168_empty_content_id_refuted :
  forall max_sub max_peer,
  let s := run max_sub max_peer ok no
             [Packet (ann 0); Response (ans 0); Packet d1] in
  sent s = [ann 0; d1] /\ n_invalid s = 0.
Proof. intros. split; reflexivity. Qed.
Print Assumptions C168_empty_content_id_refuted.

(* C169: the first packet of a subscription is lost without any count when
   the announcement arrives just after it. *)
Theorem C169_all_accounted_refuted :
  forall max_sub max_peer load valid,
  let s := run max_sub max_peer load valid [Packet d1; Packet (ann 7)] in
  packets [Packet d1; Packet (ann 7)] = [d1; ann 7] /\
  sent s = [] /\ held s = [ann 7] /\
  n_fail s + n_invalid s + n_drop s = 0.
Proof. intros. repeat split; reflexivity. Qed.
Print Assumptions C169_all_accounted_refuted.

(* C169: the received counter counts a held packet twice. *)
Theorem C169_received_counts_twice_refuted :
  forall max_sub max_peer valid,
  n_received (run max_sub max_peer ok valid [Packet (ann 7); Response (ans 7)]) = 2.
Proof. intros. cbn. destruct (valid _ _); reflexivity. Qed.
Print Assumptions C169_received_counts_twice_refuted.

(* C170: the configured limits themselves are exceeded. *)
Theorem C170_limits_refuted :
  forall load valid,
  let u := mk_msg 1 (Started 5 None) 0 in
  let s := run 1 1 load valid [Packet u; Packet u; Packet u] in
  length (held_sub 1 5 s) = 2 /\ length (held_peer 1 s) = 2 /\ n_drop s = 1.
Proof. intros. repeat split; reflexivity. Qed.
Print Assumptions C170_limits_refuted.

(* C171: while the lookup is under way, the second packet of a subscription is
   sent on unvalidated, and before the first, although the schema that is on
   its way would have rejected both. *)
Theorem C171_waits_in_order_refuted :
  forall max_sub max_peer valid,
  let s := run max_sub max_peer ok valid [Packet d1; Packet d2] in
  map o_msg (v_out s) = [d2] /\ map o_cid (v_out s) = [None] /\ held s = [d1] /\
  sent (run max_sub max_peer ok yes [Packet d1; Packet d2; Response (ans 7)]) = [d2; d1] /\
  sent (run max_sub max_peer ok no [Packet d1; Packet d2; Response (ans 7)]) = [d2].
Proof. intros. repeat split; reflexivity. Qed.
Print Assumptions C171_waits_in_order_refuted.

(* C173: a late answer about an earlier description replaces the newer one,
   and packets are validated and labelled with the old schema. *)
Theorem C173_late_answer_refuted :
  forall max_sub max_peer,
  let s := run max_sub max_peer ok yes
    [Packet (ann 7); Packet (ann 8); Response (ans 8); Response (ans 7); Packet d1] in
  v_out s = [mk_out (Some 8%N) (inf 8) (ann 8); mk_out (Some 7%N) (inf 7) d1].
Proof. intros. reflexivity. Qed.
Print Assumptions C173_late_answer_refuted.

(* ---- C177: the two actors can wait for each other for ever ---- *)

(* With at least two more new subscriptions than fit in the two channels, no
   answer is ever processed, and every execution ends with both actors blocked
   in a send and both channels full. *)
Theorem C177_no_deadlock_refuted :
  forall cap_req cap_resp n, 1 <= cap_req -> 1 <= cap_resp -> cap_req + cap_resp + 2 <= n ->
  (forall d, dsteps cap_req cap_resp (burst n) d -> d_done d = 0) /\
  (exists d, dsteps cap_req cap_resp (burst n) d /\ forall d', ~ dstep cap_req cap_resp d d') /\
  (forall d, dsteps cap_req cap_resp (burst n) d -> (forall d', ~ dstep cap_req cap_resp d d') ->
     d_vsend d = true /\ d_csend d = true /\ d_req d = cap_req /\ d_resp d = cap_resp /\
     d_rx d = n - (cap_req + cap_resp + 2)).
Proof.
  intros cq cr n C1 C2 L. split; [|split].
  - intros d. apply dsteps_done. exact L.
  - eapply dsteps_end. reflexivity.
  - intros d H N. pose proof (dinv_steps _ _ _ _ H) as (I1 & I2 & I3).
    pose proof (dsteps_done _ _ _ _ L H) as D.
    destruct (stuck_shape _ _ _ C1 C2 N I2 I3) as [(H1 & H2 & H3 & H4 & H5)|(H1 & H2 & H3 & H4)].
    + rewrite H1, H2, H3, H4, H5, D in I1. cbn in I1. lia.
    + rewrite H1, H2, H3, H4, D in I1. cbn in I1. repeat split; try assumption. lia.
Qed.
Print Assumptions C177_no_deadlock_refuted.

(* Below that every execution ends, with every answer processed. *)
Theorem C177_small_burst_completes_partial :
  forall cap_req cap_resp n, 1 <= cap_req -> 1 <= cap_resp -> n <= cap_req + cap_resp + 1 ->
  (exists d, dsteps cap_req cap_resp (burst n) d /\ forall d', ~ dstep cap_req cap_resp d d') /\
  (forall d, dsteps cap_req cap_resp (burst n) d -> (forall d', ~ dstep cap_req cap_resp d d') ->
     d = mk_duo 0 false 0 false 0 n).
Proof.
  intros cq cr n C1 C2 L. split.
  - eapply dsteps_end. reflexivity.
  - intros d H N. pose proof (dinv_steps _ _ _ _ H) as (I1 & I2 & I3).
    destruct (stuck_shape _ _ _ C1 C2 N I2 I3) as [(H1 & H2 & H3 & H4 & H5)|(H1 & H2 & H3 & H4)].
    + rewrite H1, H2, H3, H4, H5 in I1. cbn in I1.
      destruct d as [p v r c a k]; cbn in *. congruence.
    + rewrite H1, H2, H3, H4 in I1. cbn in I1. lia.
Qed.
Print Assumptions C177_small_burst_completes_partial.

Example C167_nonvacuous :
  let s := run 10 10 ok yes [Packet (ann 7); Response (ans 7)] in
  v_out s = [mk_out (Some 7%N) (inf 7) (ann 7)].
Proof. reflexivity. Qed.

Example C168_nonvacuous :
  exists m0, In m0 (packets [Packet (ann 7)]) /\ of_sub (i_ip (inf 7)) (i_id (inf 7)) m0.
Proof. exists (ann 7). split; [left; reflexivity|split; reflexivity]. Qed.

Example C168_nonvacuous_run :
  map o_cid (v_out (run 10 10 ok (fun _ m => negb (m_pay m =? 10)%N)
    [Packet (ann 7); Response (ans 7); Packet d1; Packet d2])) = [Some 7%N; Some 7%N].
Proof. reflexivity. Qed.

Example C169_nonvacuous :
  orderly (fun _ _ => inf 7) [Packet (ann 7); Packet d1; Response (ans 7)].
Proof.
  split; [|split].
  - intros a i [<-|[<-|[]]] [A1 A2].
    + destruct i as [x1 x2 x3 x4]. unfold inf. cbn in *. congruence.
    + discriminate.
  - intros q [<-|[]]. reflexivity.
  - intros pre m post id E NM. destruct pre as [|x [|y [|z pre]]]; cbn in E.
    + injection E as <- _. left. exists (inf 7). split; reflexivity.
    + injection E as <- <- _. right. exists (ann 7). split; [left; reflexivity|].
      cbn in NM. injection NM as <-. split; reflexivity.
    + discriminate.
    + injection E as _ _ _ E. destruct pre; discriminate.
Qed.

Example C170_nonvacuous :
  length (held_sub 1 5 (run 3 9 ok yes (repeat (Packet (mk_msg 1 (Started 5 None) 0)) 9))) = 4.
Proof. reflexivity. Qed.

Example C171_nonvacuous :
  of_sub (m_ip d1) 5 d1 /\ ~ In d1 (packets [Packet d2]) /\
  held (run 3 9 ok yes [Packet d1; Packet d2]) = [d1].
Proof. split; [split; reflexivity|]. split; [intros [H|[]]; discriminate|reflexivity]. Qed.

Example C172_nonvacuous :
  held (run 3 9 ok yes [Packet d1]) = [d1] /\
  held (run 3 9 ok yes ([Packet d1] ++ [Response (ans 7)])) = [] /\
  sent (run 3 9 ok yes ([Packet d1] ++ [Response (ans 7)])) = [d1].
Proof. repeat split; reflexivity. Qed.

Example C173_nonvacuous :
  announces (ann 8) (inf 8) /\ of_sub (i_ip (inf 8)) (i_id (inf 8)) d1 /\
  v_out (run 3 9 ok yes ([] ++ Packet (ann 8) :: [Response (ans 8)] ++ [Packet d1])) =
    [mk_out (Some 8%N) (inf 8) (ann 8); mk_out (Some 8%N) (inf 8) d1].
Proof. repeat split; reflexivity. Qed.

Example C174_nonvacuous :
  out_of 1 (run 3 9 ok yes [Packet d1; Packet (mk_msg 2 (Data 5) 1); Packet d2;
    Response (ans 7)]) =
  [mk_out None (mk_info 1 5 0 0) d2; mk_out (Some 7%N) (inf 7) d1].
Proof. reflexivity. Qed.

Example C175_nonvacuous :
  l_cache (rounds 3 9 ok yes (mk_loop [] [ans 7] init) (repeat ([d1], []) 20)) = [ans 7].
Proof. reflexivity. Qed.

Example C176_nonvacuous :
  tracked (run 3 9 ok yes [Packet d1; Response (ans 7); Packet (mk_msg 1 (Ended 5) 0)]) = [(1, 5)%N].
Proof. reflexivity. Qed.

Example C177_nonvacuous : dsteps 1 1 (burst 4) (mk_duo 0 true 1 true 1 0).
Proof.
  eapply ds_step; [|apply d_take].
  eapply ds_step; [|apply d_request; lia].
  eapply ds_step; [|apply d_lookup].
  eapply ds_step; [|apply d_take].
  eapply ds_step; [|apply d_request; lia].
  eapply ds_step; [|apply d_take].
  eapply ds_step; [|apply d_answer; lia].
  eapply ds_step; [|apply d_lookup].
  eapply ds_step; [|apply d_request; lia].
  eapply ds_step; [|apply d_take].
  apply ds_refl.
Qed.
