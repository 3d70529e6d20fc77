(* BMP collector service: deliveries, sharding, subscriptions, connections, stop. *)
From Coq Require Import List NArith Bool Lia Arith.
From Verif Require Import BsModel BsSpec BsProofs BsTableProofs.
Import ListNotations.
Local Open Scope N_scope.

Section Actor.
Variable hash : N -> N.
Notation state := (state hash).
Notation answer_to es e := (snd (step hash (state es) e)).

(* ---- C154: deliveries ---- *)
(* whatever was offered to a subscriber's channel is a message of that connection,
   meant for that subscriber *)
Theorem C154_as_decoded es o : In o (a_log (state es)) ->
  exists x subs senders, nth_error (a_tasks (state es)) (o_task o) = Some x /\
    nth_error (t_in x) (o_seq o) = Some (o_msg o, subs) /\ In (o_sub o, senders) subs.
Proof.
  intros Ho. pose proof (good_state hash es) as G. destruct (g_log _ _ G) as (_ & L2 & _).
  destruct (nth_error (a_tasks (state es)) (o_task o)) as [x|] eqn:Ex; [|apply nth_error_None in Ex; specialize (L2 o Ho); lia].
  destruct (k_log _ _ _ _ _ _ _ (g_tasks _ _ G _ _ Ex) o Ho eq_refl) as (s & sd & H1 & H2 & _). exists x, s, sd. auto.
Qed.
(* no subscriber is offered the same message twice, and each sees the messages of a
   connection in the order they were read *)
Theorem C154_once_in_order es l1 o1 l2 o2 l3 : a_log (state es) = l1 ++ o1 :: l2 ++ o2 :: l3 ->
  o_task o1 = o_task o2 -> (o_seq o1 <= o_seq o2)%nat /\ (o_sub o1 = o_sub o2 -> (o_seq o1 < o_seq o2)%nat).
Proof.
  intros E Et. destruct (g_log _ _ (good_state hash es)) as (L1 & _ & L3). pose proof (L3 _ _ _ _ _ E Et) as Hle. split; [exact Hle|].
  intros Es. destruct (Nat.eq_dec (o_seq o1) (o_seq o2)) as [En|]; [|lia]. exfalso.
  rewrite E in L1. rewrite map_app in L1. cbn [map] in L1. apply NoDup_remove_2 in L1. apply L1. apply in_or_app. right.
  rewrite map_app. apply in_or_app. right. left. unfold key. congruence.
Qed.
(* every message goes to each of the subscribers it was meant for; only the last one
   of a connection can have been cut short *)
Theorem C154_all es t x k m subs i senders : nth_error (a_tasks (state es)) t = Some x ->
  nth_error (t_in x) k = Some (m, subs) -> In (i, senders) subs ->
  (exists o, In o (a_log (state es)) /\ o_task o = t /\ o_seq o = k /\ o_sub o = i /\ o_msg o = m) \/
  (S k = length (t_in x) /\ interrupted x).
Proof.
  intros Hx Hk Hi. pose proof (g_tasks _ _ (good_state hash es) _ _ Hx) as K.
  destruct (k_all _ _ _ _ _ _ _ K k m subs i senders Hk Hi) as [(o & Ho & E)|[E [(Hp & Ha)|[Hp|(pd & Hp & _)]]]].
  - left. exists o. injection E as E1 E2 E3. repeat split; auto.
    destruct (k_log _ _ _ _ _ _ _ K o Ho E1) as (s & sd & H & _). rewrite E2, Hk in H. congruence.
  - right. split; [exact E|]. unfold interrupted. now rewrite Hp.
  - right. split; [exact E|]. unfold interrupted. now rewrite Hp.
  - right. split; [exact E|]. unfold interrupted. now rewrite Hp.
Qed.

(* ---- C155: sharding ---- *)
(* a subscriber gets all the messages of one peer on the same channel, one of those it
   subscribed with, whatever the connection *)
Theorem C155_channel es o x : In o (a_log (state es)) -> nth_error (a_tasks (state es)) (o_task o) = Some x ->
  exists senders, nth_error (subscriptions (before_stop es)) (N.to_nat (o_sub o)) = Some senders /\
    nth_error senders (N.to_nat (hash (t_addr x) mod N.of_nat (length senders))) = Some (o_chan o).
Proof.
  intros Ho Hx. pose proof (g_tasks _ _ (good_state hash es) _ _ Hx) as K.
  destruct (k_log _ _ _ _ _ _ _ K o Ho eq_refl) as (s & sd & H1 & H2 & H3).
  destruct (u_maps _ _ (subs_state hash es)) as (_ & _ & Hm). destruct (Hm x (nth_error_In _ _ Hx)) as [_ Hin].
  exists sd. split; [exact (Hin _ _ (nth_error_In _ _ H1) _ _ H2)|]. unfold pick in H3.
  destruct sd as [|c [|c' sd]]; [discriminate| |exact H3]. cbn [length]. change (N.of_nat 1) with 1. rewrite N.mod_1_r. exact H3.
Qed.
Theorem C155_same_peer_same_channel es o1 o2 x1 x2 : In o1 (a_log (state es)) -> In o2 (a_log (state es)) ->
  nth_error (a_tasks (state es)) (o_task o1) = Some x1 -> nth_error (a_tasks (state es)) (o_task o2) = Some x2 ->
  t_addr x1 = t_addr x2 -> o_sub o1 = o_sub o2 -> o_chan o1 = o_chan o2.
Proof.
  intros H1 H2 X1 X2 Ea Es. destruct (C155_channel es o1 x1 H1 X1) as (s1 & A1 & B1). destruct (C155_channel es o2 x2 H2 X2) as (s2 & A2 & B2).
  rewrite Es, A2 in A1. injection A1 as <-. congruence.
Qed.
(* a subscription without channels is accepted, and ends every connection that reads a
   message while holding it: the message is its last *)
Theorem C155_no_channels_refuted es t x k m subs i : nth_error (a_tasks (state es)) t = Some x ->
  nth_error (t_in x) k = Some (m, subs) -> In (i, []) subs ->
  S k = length (t_in x) /\ interrupted x.
Proof.
  intros Hx Hk Hi. destruct (C154_all es t x k m subs i [] Hx Hk Hi) as [(o & Ho & E1 & E2 & E3 & _)|H]; [exfalso|exact H].
  pose proof (g_tasks _ _ (good_state hash es) _ _ Hx) as K. destruct (k_log _ _ _ _ _ _ _ K o Ho E1) as (s & sd & H1 & H2 & H3).
  rewrite E2, Hk in H1. injection H1 as _ <-. rewrite E3 in H2.
  assert (sd = []); [|subst sd; discriminate H3].
  pose proof (k_in _ _ _ _ _ _ _ K m subs (nth_error_In _ _ Hk)) as [Hnd _].
  apply (sub_get_some subs i Hnd) in H2, Hi. congruence.
Qed.

(* ---- C156: subscriptions ---- *)
(* subscriptions are numbered in the order they are made, and a number never means
   another subscription *)
Theorem C156_numbered es senders : ~ stopped es ->
  answer_to es (Subscribe senders) = ASubscription (N.of_nat (length (subscriptions (before_stop es)))).
Proof.
  intros Hs. unfold step. cbn [event_task]. pose proof (down_stopped hash es) as Hd. destruct (a_down (state es)).
  - symmetry in Hd. apply stopped_b in Hd. contradiction.
  - cbn [snd]. now rewrite (u_next _ _ (subs_state hash es)).
Qed.
(* unsubscribing answers with the subscription exactly when there is one *)
Theorem C156_unsubscribe es id : ~ stopped es ->
  (answer_to es (Unsubscribe id) = AUnsubscribed (Some id) <-> exists senders, subscribed es id senders) /\
  (answer_to es (Unsubscribe id) = AUnsubscribed None <-> forall senders, ~ subscribed es id senders).
Proof.
  intros Hs. unfold step. cbn [event_task]. pose proof (down_stopped hash es) as Hd. destruct (a_down (state es)).
  { symmetry in Hd. apply stopped_b in Hd. contradiction. }
  cbn [snd]. pose proof (u_subs _ _ (subs_state hash es)) as Hu. pose proof (g_subs _ _ (good_state hash es)) as [Hnd _].
  destruct (sub_get (a_subs (state es)) id) as [s|] eqn:Eg; cbn [option_map].
  - apply (sub_get_some _ _ Hnd) in Eg. apply Hu in Eg. split; split; try reflexivity; try discriminate; eauto.
    intros H. now destruct (H s).
  - assert (Hn : forall s, ~ subscribed es id s) by (intros s H; apply Hu in H; now apply (proj1 (sub_get_none _ _) Eg s)).
    split; split; try reflexivity; try discriminate; auto. intros [s H]. now destruct (Hn s).
Qed.
(* a connection that waits and has taken all updates holds the current subscriptions,
   and its next message is meant for exactly those *)
Theorem C156_current es t x m : nth_error (a_tasks (state es)) t = Some x -> waiting x -> up_to_date (state es) x ->
  exists x' subs, nth_error (a_tasks (state (es ++ [Decoded t m]))) t = Some x' /\ t_in x' = t_in x ++ [(m, subs)] /\
    forall id senders, In (id, senders) subs <-> subscribed es id senders.
Proof.
  intros Hx Hw Hu. exists (Task (t_addr x) (t_subs x) (t_cursor x) (t_in x ++ [(m, t_subs x)]) (Sending (length (t_in x)) m (t_subs x)) (t_abort x)), (t_subs x).
  split; [|split; [reflexivity|]].
  - rewrite state_snoc. unfold step. cbn [event_task fst]. rewrite Hx. unfold task_step. rewrite Hw.
    rewrite set_task_tasks, nth_upd, Nat.eqb_refl by (now apply nth_lt in Hx). reflexivity.
  - pose proof (g_tasks _ _ (good_state hash es) _ _ Hx) as K. rewrite (k_fresh _ _ _ _ _ _ _ K Hu). apply (u_subs _ _ (subs_state hash es)).
Qed.
(* it gets there in at most seventeen turns, however many updates it missed *)
Theorem C156_catches_up es t x : ~ stopped es -> nth_error (a_tasks (state es)) t = Some x -> waiting x ->
  exists x', nth_error (a_tasks (state (es ++ repeat (Update t) 17))) t = Some x' /\
    waiting x' /\ up_to_date (state (es ++ repeat (Update t) 17)) x'.
Proof.
  intros Hs Hx Hw. pose proof (g_tasks _ _ (good_state hash es) _ _ Hx) as K. pose proof (k_cursor _ _ _ _ _ _ _ K) as Hc.
  pose proof (seventeen hash (state es) t x Hx Hw Hc) as H. cbv zeta in H. rewrite <- (state_app hash es) in H.
  destruct H as (E1 & _ & _ & x' & Hx' & _ & [[H1 H2]|[_ H2]]).
  - exists x'. split; [exact Hx'|]. split; [exact H1|]. unfold up_to_date. congruence.
  - rewrite (down_stopped hash es) in H2. apply stopped_b in H2. contradiction.
Qed.

(* ---- C157: connections ---- *)
(* the peers reported are distinct, and each has a connection that the service was
   not asked to end *)
Theorem C157_peers es : ~ stopped es -> exists l, answer_to es ConnectedPeers = APeers l /\ NoDup l /\
  forall addr, In addr l -> exists t x, nth_error (a_tasks (state es)) t = Some x /\ t_addr x = addr /\ wanted x /\
    (roomy hash init es -> t_phase x = Gone -> In addr (a_closed (state es))).
Proof.
  intros Hs. unfold step. cbn [event_task]. pose proof (down_stopped hash es) as Hd. destruct (a_down (state es)).
  { symmetry in Hd. apply stopped_b in Hd. contradiction. }
  eexists. split; [reflexivity|]. pose proof (table_state hash es) as [T1 T2 _]. split; [exact T1|].
  intros addr Hin. apply in_map_iff in Hin as ([ad t] & <- & Hin). destruct (T2 ad t Hin) as (x & Hx & Ex & Wx). exists t, x.
  repeat split; auto. intros Hr Hg. exact (noticed_state hash es Hr ad t x Hin Hx Hg).
Qed.
(* when closing notices come in time, every connection being served is reported, there
   is one per peer, and disconnecting the peer asks it to end *)
Theorem C157_reported_partial es t x : ~ stopped es -> in_time hash init es ->
  nth_error (a_tasks (state es)) t = Some x -> live x -> wanted x ->
  (exists l, answer_to es ConnectedPeers = APeers l /\ In (t_addr x) l) /\
  answer_to es (Disconnect (t_addr x)) = ADisconnected true /\
  (exists x', nth_error (a_tasks (state (es ++ [Disconnect (t_addr x)]))) t = Some x' /\ ~ wanted x') /\
  forall u y, nth_error (a_tasks (state es)) u = Some y -> live y -> wanted y -> t_addr y = t_addr x -> u = t.
Proof.
  intros Hs Hi Hx Hl Hw. pose proof (complete_state hash es Hi) as C. pose proof (table_state hash es) as [T1 T2 _].
  destruct (C t x Hx Hl Hw) as [Hd Hin]. pose proof (proj2 (table_get_some _ _ _ T1) Hin) as Hg.
  split; [|split; [|split]].
  - unfold step. cbn [event_task]. rewrite Hd. eexists. split; [reflexivity|]. exact (in_map fst _ _ Hin).
  - unfold step. cbn [event_task]. rewrite Hd, Hg. reflexivity.
  - rewrite state_snoc. unfold step. cbn [event_task]. rewrite Hd, Hg. cbn [fst]. eexists. split; [apply abort_nth; exact Hx|].
    rewrite Nat.eqb_refl. unfold wanted. cbn. discriminate.
  - intros u y Hy Ly Wy E. destruct (C u y Hy Ly Wy) as [_ Hin']. rewrite E in Hin'. apply (table_get_some _ _ _ T1) in Hin'. congruence.
Qed.
(* after a disconnect the peer is not reported any more *)
Theorem C157_disconnected es addr : ~ stopped es ->
  ~ exists l, answer_to (es ++ [Disconnect addr]) ConnectedPeers = APeers l /\ In addr l.
Proof.
  intros Hs (l & Ha & Hin). unfold step in Ha. cbn [event_task] in Ha.
  destruct (a_down (state (es ++ [Disconnect addr]))); [discriminate Ha|]. cbn [snd] in Ha. injection Ha as <-.
  rewrite state_snoc in Hin. unfold step in Hin. cbn [event_task] in Hin.
  pose proof (down_stopped hash es) as Hd. destruct (a_down (state es)).
  { symmetry in Hd. apply stopped_b in Hd. contradiction. }
  destruct (table_get (a_table (state es)) addr) as [t|] eqn:Eg; cbn [fst] in Hin.
  - destruct (abort_frame (with_table (state es) (table_del (a_table (state es)) addr)) t) as (_ & _ & _ & Ft & _).
    rewrite Ft in Hin. cbn [with_table a_table] in Hin. apply in_map_iff in Hin as ([ad u] & E & Hin). apply in_table_del in Hin as [_ Hn].
    cbn in E. congruence.
  - apply table_get_none in Eg. contradiction.
Qed.
(* an abort that takes effect ends a connection, and a connection that is over offers
   nothing more and never comes back *)
Theorem C157_cancelled es t x : nth_error (a_tasks (state es)) t = Some x -> ~ wanted x ->
  exists x', nth_error (a_tasks (state (es ++ [Cancelled t]))) t = Some x' /\ ~ live x'.
Proof.
  intros Hx Hw. rewrite state_snoc. unfold step. cbn [event_task fst]. rewrite Hx. unfold task_step, wanted in *.
  pose proof (nth_lt _ _ _ Hx) as Hlt. destruct (t_abort x); [|congruence].
  destruct (t_phase x) eqn:Ep; try (exists x; split; [exact Hx|]; unfold live; rewrite Ep; auto; fail);
    (eexists; rewrite set_task_tasks, nth_upd, Nat.eqb_refl by exact Hlt; split; [reflexivity|]; intros []).
Qed.
Theorem C157_over es t x fs : nth_error (a_tasks (state es)) t = Some x -> ~ live x ->
  (exists x', nth_error (a_tasks (state (es ++ fs))) t = Some x' /\ ~ live x') /\
  forall o, In o (a_log (state (es ++ fs))) -> o_task o = t -> In o (a_log (state es)).
Proof.
  intros Hx Hl. destruct (later_state hash es fs) as (A1 & ext & A2 & A3). split.
  - destruct (A1 t x Hx) as (x' & Hx' & (_ & _ & Hlv & _)). exists x'. split; [exact Hx'|]. auto.
  - intros o Ho Et. rewrite A2 in Ho. apply in_app_or in Ho as [Ho|Ho]; [exact Ho|]. destruct Hl. apply (A3 o Ho). now rewrite Et.
Qed.

(* ---- C158: stopping ---- *)
(* a stopped service reports no peers, takes no connections and answers nothing *)
Theorem C158_stopped es fs : stopped es ->
  a_table (state (es ++ fs)) = [] /\ length (a_tasks (state (es ++ fs))) = length (a_tasks (state es)) /\
  forall e, answer_to (es ++ fs) e = ANone.
Proof.
  intros Hs.
  assert (Hd : forall gs, a_down (state (es ++ gs)) = true).
  { intros gs. rewrite down_stopped. apply stopped_b. unfold stopped in *. apply in_or_app. now left. }
  split; [|split].
  - exact (b_down _ (table_state hash (es ++ fs)) (Hd fs)).
  - induction fs as [|e fs IH] using rev_ind; [now rewrite app_nil_r|]. rewrite app_assoc, state_snoc, <- IH.
    unfold step. destruct (event_task e) as [t|] eqn:Et; [|now rewrite Hd]. cbn [fst].
    destruct (nth_error (a_tasks (state (es ++ fs))) t) as [x|] eqn:Ex; [|reflexivity].
    destruct (moved_task_step hash _ t x e Ex) as (x' & [A1 _ _ _ _ _ _ _ _]). rewrite A1. apply upd_length. now apply nth_lt in Ex.
  - intros e. unfold step. destruct (event_task e); [reflexivity|]. now rewrite Hd.
Qed.
(* its connections were all asked to end, when closing notices came in time *)
Theorem C158_asked_to_end_partial es t x : stopped es -> in_time hash init es ->
  nth_error (a_tasks (state es)) t = Some x -> live x -> ~ wanted x.
Proof.
  intros Hs Hi Hx Hl Hw. destruct (complete_state hash es Hi t x Hx Hl Hw) as [Hd _].
  rewrite down_stopped in Hd. apply stopped_b in Hs. congruence.
Qed.
(* even one that was not ends by itself, within eighteen turns *)
Theorem C158_ends es t x : stopped es -> nth_error (a_tasks (state es)) t = Some x -> waiting x ->
  exists x', nth_error (a_tasks (state (es ++ repeat (Update t) 18))) t = Some x' /\ ~ live x'.
Proof.
  intros Hs Hx Hw. pose proof (g_tasks _ _ (good_state hash es) _ _ Hx) as K. pose proof (k_cursor _ _ _ _ _ _ _ K) as Hc.
  destruct (eighteen hash (state es) t x Hx Hw Hc) as (x' & Hx' & Hp); [rewrite down_stopped; now apply stopped_b|].
  rewrite <- (state_app hash es) in Hx'. exists x'. split; [exact Hx'|]. unfold live. now rewrite Hp.
Qed.
End Actor.
Print Assumptions C154_as_decoded.
Print Assumptions C154_once_in_order.
Print Assumptions C154_all.
Print Assumptions C155_channel.
Print Assumptions C155_same_peer_same_channel.
Print Assumptions C155_no_channels_refuted.
Print Assumptions C156_numbered.
Print Assumptions C156_unsubscribe.
Print Assumptions C156_current.
Print Assumptions C156_catches_up.
Print Assumptions C157_peers.
Print Assumptions C157_reported_partial.
Print Assumptions C157_disconnected.
Print Assumptions C157_cancelled.
Print Assumptions C157_over.
Print Assumptions C158_stopped.
Print Assumptions C158_asked_to_end_partial.
Print Assumptions C158_ends.

(* ---- what does not hold ---- *)
(* a subscriber whose unsubscription was confirmed can still be sent messages *)
Theorem C156_after_unsubscribe_refuted hash : exists es o,
  snd (step hash (state hash es) (Unsubscribe 0)) = AUnsubscribed (Some 0) /\
  In o (a_log (state hash (es ++ [Unsubscribe 0; Decoded 0 7; Offer 0 0 true]))) /\
  ~ In o (a_log (state hash (es ++ [Unsubscribe 0]))) /\ o_sub o = 0.
Proof.
  exists [Subscribe [5]; Accept 1], (Outcome 0 0 7 0 5 true). repeat split; cbn; auto.
Qed.
Print Assumptions C156_after_unsubscribe_refuted.
(* messages of a connection are still handed out after the service confirmed that the
   peer was disconnected: the abort need not have taken effect *)
Theorem C157_after_disconnect_refuted hash : exists es o,
  snd (step hash (state hash es) (Disconnect 1)) = ADisconnected true /\
  In o (a_log (state hash (es ++ [Disconnect 1; Decoded 0 7; Offer 0 0 true]))) /\
  ~ In o (a_log (state hash (es ++ [Disconnect 1]))) /\ o_task o = 0%nat.
Proof.
  exists [Subscribe [5]; Accept 1], (Outcome 0 0 7 0 5 true). repeat split; cbn; auto.
Qed.
Print Assumptions C157_after_disconnect_refuted.
(* the late notice of an old connection takes the new one of the same peer out of the
   table: it is served, but not reported and cannot be disconnected *)
Theorem C157_late_notice_refuted hash : exists es t x, nth_error (a_tasks (state hash es)) t = Some x /\ live x /\ wanted x /\
  snd (step hash (state hash es) ConnectedPeers) = APeers [] /\
  snd (step hash (state hash es) (Disconnect (t_addr x))) = ADisconnected false.
Proof.
  exists [Accept 1; Ended 0; Notice 0; Accept 1; TakeClosed], 1%nat, (Task 1 [] 0 [] Idle false). repeat split; cbn; auto.
Qed.
Print Assumptions C157_late_notice_refuted.
(* a connection whose handling crashed stays reported as connected *)
Theorem C157_crashed_refuted hash : exists es, forall fs,
  ~ In (Disconnect 1) fs -> ~ In (Accept 1) fs -> ~ stopped fs -> (forall a, ~ In (Accept a) fs) ->
  exists x l, nth_error (a_tasks (state hash (es ++ fs))) 0 = Some x /\ t_phase x = Crashed /\
    snd (step hash (state hash (es ++ fs)) ConnectedPeers) = APeers l /\ In 1 l.
Proof.
  exists [Subscribe []; Accept 1; Decoded 0 7; Offer 0 0 true]. intros fs H1 H2 H3 H4.
  set (es := [Subscribe []; Accept 1; Decoded 0 7; Offer 0 0 true]).
  assert (Hinv : exists x, a_tasks (state hash (es ++ fs)) = [x] /\ t_phase x = Crashed /\
    a_table (state hash (es ++ fs)) = [(1, 0%nat)] /\ a_closed (state hash (es ++ fs)) = [] /\ a_down (state hash (es ++ fs)) = false).
  { induction fs as [|e fs IH] using rev_ind.
    - rewrite app_nil_r. eexists. cbn. repeat split.
    - destruct IH as (x & E1 & E2 & E3 & E4 & E5).
      { intros H. apply H1. apply in_or_app. now left. } { intros H. apply H2. apply in_or_app. now left. }
      { intros H. apply H3. unfold stopped in *. apply in_or_app. now left. } { intros a H. apply (H4 a). apply in_or_app. now left. }
      rewrite app_assoc, state_snoc. set (a := state hash (es ++ fs)) in *. unfold step. destruct (event_task e) as [t|] eqn:Et.
      + cbn [fst]. rewrite E1. exists x. destruct t as [|[|t]]; cbn [nth_error]; auto.
        unfold task_step. rewrite E2. destruct e; auto 6.
      + rewrite E5. destruct e as [senders|id|addr| | | |addr|u|u m|u i ok|u|u|u]; try discriminate Et; cbn [fst publish a_tasks a_table a_closed a_down]; try (exists x; auto 6; fail).
        * rewrite E3. unfold table_get. cbn [find fst]. destruct (N.eqb_spec 1 addr) as [<- |_].
          -- destruct H1. apply in_or_app. right. now left.
          -- cbn [option_map fst]. exists x. auto 6.
        * destruct H3. unfold stopped. apply in_or_app. right. now left.
        * rewrite E4. exists x. cbn [fst]. auto 6.
        * destruct (H4 addr). apply in_or_app. right. now left. }
  destruct Hinv as (x & E1 & E2 & E3 & _ & E5). exists x, [1]. rewrite E1. split; [reflexivity|]. split; [exact E2|].
  unfold step. cbn [event_task]. rewrite E5. cbn [snd]. rewrite E3. split; [reflexivity|now left].
Qed.
Print Assumptions C157_crashed_refuted.
(* a full queue of notices leaves the entry of a connection that is over: it is
   reported as connected, with no notice on the way *)
Theorem C157_lost_notice_refuted hash : exists es t x l, nth_error (a_tasks (state hash es)) t = Some x /\ t_phase x = Gone /\
  a_closed (state hash es) = [] /\ snd (step hash (state hash es) ConnectedPeers) = APeers l /\ In (t_addr x) l.
Proof.
  destruct (overflow hash) as (es & t & x & H1 & H2 & H3 & H4 & H5 & H6). exists es, t, x. eexists. split; [exact H1|]. split; [exact H2|]. split; [exact H4|].
  unfold step. cbn [event_task]. rewrite H5. split; [reflexivity|]. rewrite H3. exact (in_map fst _ _ H6).
Qed.
Print Assumptions C157_lost_notice_refuted.
(* after the service confirmed that it stopped, a connection it lost sight of still
   hands out messages, and so may the others until their abort takes effect *)
Theorem C158_after_stop_refuted hash : exists es t x o, nth_error (a_tasks (state hash (es ++ [Shutdown]))) t = Some x /\ live x /\ wanted x /\
  In o (a_log (state hash (es ++ [Shutdown; Decoded t 7; Offer t 0 true]))) /\ ~ In o (a_log (state hash (es ++ [Shutdown]))).
Proof.
  exists [Subscribe [5]; Accept 1; Ended 0; Notice 0; Accept 1; TakeClosed], 1%nat, (Task 1 [(0, [5])] 1 [] Idle false), (Outcome 1 0 7 0 5 true).
  split; [reflexivity|]. split; [exact I|]. split; [reflexivity|]. split; [lazy; auto|lazy; auto].
Qed.
Print Assumptions C158_after_stop_refuted.

(* ---- the hypotheses are met ---- *)
Definition demo : list event :=
  [Subscribe [10; 11]; Accept 4; Subscribe [20]; Decoded 0 100; Offer 0 0 true; Offer 0 0 true; Update 0; Decoded 0 101;
   Offer 0 1 true; Offer 0 0 false; Offer 0 0 true; Unsubscribe 1; Accept 5; Update 0; Decoded 1 200; Offer 1 0 true].
Example C154_nonvacuous : a_log (state (fun a => a) demo) =
  [Outcome 0 0 100 0 10 true; Outcome 0 1 101 1 20 true; Outcome 0 1 101 0 10 false; Outcome 1 0 200 0 11 true].
Proof. reflexivity. Qed.
Example C155_nonvacuous : subscriptions (before_stop demo) = [[10; 11]; [20]] /\
  (exists x, nth_error (a_tasks (state (fun a => a) demo)) 0 = Some x /\ t_addr x = 4 /\ map fst (t_in x) = [100; 101]) /\
  exists x, nth_error (a_tasks (state (fun a => a) [Subscribe []; Accept 1; Decoded 0 7; Offer 0 0 true])) 0 = Some x /\
    nth_error (t_in x) 0 = Some (7, [(0, [])]) /\ t_phase x = Crashed.
Proof. split; [reflexivity|]. split; (eexists; split; [lazy; reflexivity|split; reflexivity]). Qed.
Example C156_nonvacuous : ~ stopped demo /\ subscribed demo 0 [10; 11] /\ ~ subscribed demo 1 [20] /\
  exists x, nth_error (a_tasks (state (fun a => a) demo)) 0 = Some x /\ waiting x /\ up_to_date (state (fun a => a) demo) x.
Proof.
  split; [intros H; repeat (destruct H as [H|H]; [discriminate|]); exact H|]. split; [|split].
  - exists [], (tl demo). split; [reflexivity|]. split; [reflexivity|]. intros H. repeat (destruct H as [H|H]; [discriminate|]). exact H.
  - intros H. pose proof (proj2 (u_subs _ _ (subs_state (fun a => a) demo) 1 [20]) H) as Hin. lazy in Hin. destruct Hin as [E|[]]. discriminate.
  - eexists. split; [lazy; reflexivity|]. split; reflexivity.
Qed.
Example C157_nonvacuous : in_time (fun a => a) init demo /\ roomy (fun a => a) init (demo ++ [Ended 0; Notice 0; TakeClosed]) /\
  in_time (fun a => a) init (demo ++ [Ended 0; Notice 0; TakeClosed]) /\
  snd (step (fun a => a) (state (fun a => a) demo) ConnectedPeers) = APeers [4; 5] /\
  snd (step (fun a => a) (state (fun a => a) (demo ++ [Ended 0; Notice 0; TakeClosed])) ConnectedPeers) = APeers [5] /\
  exists x, nth_error (a_tasks (state (fun a => a) (demo ++ [Ended 0]))) 0 = Some x /\ ~ live x.
Proof.
  split; [lazy; repeat split|]. split.
  { lazy -[closed_capacity lt]. repeat split. unfold closed_capacity. lia. }
  split.
  { lazy. repeat split. intros x [<-|[<-|[]]]; cbn; intros E _; [intros []|discriminate E]. }
  split; [reflexivity|]. split; [reflexivity|]. eexists. split; [lazy; reflexivity|]. intros [].
Qed.
Example C158_nonvacuous : stopped (demo ++ [Shutdown]) /\ in_time (fun a => a) init (demo ++ [Shutdown]) /\
  exists x, nth_error (a_tasks (state (fun a => a) (demo ++ [Shutdown]))) 0 = Some x /\ waiting x /\ live x /\ ~ wanted x.
Proof.
  split; [unfold stopped; cbn; tauto|]. split; [lazy; repeat split|]. eexists. split; [lazy; reflexivity|]. split; [reflexivity|]. split; [exact I|discriminate].
Qed.
