(* Properties C37-C39 and C63: the collector actors. *)
From Verif Require Import Base BaseLemmas MapLib ActorModel ActorSpec ActorProofs.

Section Props.
(* any decoder, any packet type, any channels, any hash *)
Context {C Pk Chan : Type} (fresh : C) (dec : C -> list N -> C * option Pk) (hash : N -> N).
Notation run := (@run C Pk Chan fresh dec hash).
Notation step := (@step C Pk Chan fresh dec hash).
Notation actor_new := actor_new.
(* the actor after a history, and what comes out afterwards *)
Notation after evs := (fst (run actor_new evs)).
Notation seen s evs := (outputs (snd (run s evs))).

(* ---- C37 ---- *)
(* What comes out of the packets of one peer, and the templates reported for
   it, are the same when everything about other peers, and about subscribers,
   is removed from the history. *)
Theorem C37_peers_are_separate : forall p evs,
  filter (about p) (seen actor_new evs) = filter (about p) (seen actor_new (filter (concerns p) evs)).
Proof. intros p evs. now apply run_own. Qed.
(* It is what a decoder of its own gives, fed with the peer's datagrams in
   order and replaced by a new one at every purge of that peer. *)
Theorem C37_own_decoder : forall p evs,
  filter (about p) (seen actor_new evs) = own_decoder fresh dec p None evs.
Proof. intros p evs. exact (run_replay fresh dec hash p evs actor_new eq_refl). Qed.
(* After a purge the packets of a peer are decoded as by an actor that has just
   started. *)
Theorem C37_purged_is_fresh : forall p evs1 evs2, existsb ends evs1 = false ->
  filter (about p) (seen (after (evs1 ++ [EvPurgePeer p])) evs2) = filter (about p) (seen actor_new evs2).
Proof.
  intros p evs1 evs2 He. rewrite run_app. cbn [fst].
  set (s1 := fst (run actor_new evs1)).
  assert (R : a_run s1 = true) by (unfold s1; rewrite run_run, He; reflexivity).
  rewrite run_cons. cbn [fst ActorModel.run].
  apply run_same.
  - now rewrite step_run, R.
  - now rewrite purged_fresh.
Qed.

(* ---- C38 ---- *)
(* A peer reported by a purge of unused peers has sent something once, and
   nothing for longer than the given time. *)
Theorem C38_reported_peers_were_idle_partial : forall evs now dur p o,
  clock_ok 0 (evs ++ [EvPurgeUnused now dur]) ->
  In o (snd (step (after evs) (EvPurgeUnused now dur))) -> clears p o ->
  (exists t, decoded_at p t (snd (run actor_new evs))) /\
  (forall t, decoded_at p t (snd (run actor_new evs)) -> t + dur < now).
Proof.
  intros evs now dur p o Hc Ho (ps & -> & Hp).
  assert (Hc1 : clock_ok 0 evs).
  { clear - Hc. revert Hc. generalize 0. induction evs as [|e evs IH]; intros T H; [exact Logic.I|].
    cbn in *. destruct (time_of e); [destruct H; split; auto|auto]. }
  destruct (uinv_run fresh dec hash evs 0 actor_new [] Hc1 (uinv_new fresh dec hash)) as (T & (ND & I1 & I2) & _ & H3).
  cbn [app] in *. unfold ActorModel.step in Ho.
  destruct (a_run (fst (run actor_new evs))); [|destruct Ho].
  destruct Ho as [Ho|[]]. injection Ho as <-.
  apply in_map_iff in Hp. destruct Hp as ([q [t0 n]] & <- & Hp). apply filter_In in Hp. destruct Hp as [Hp Hi].
  cbn [fst snd] in *. unfold idle in Hi; cbn in Hi. apply andb_prop in Hi. destruct Hi as [Hi1 Hi2].
  apply N.ltb_lt in Hi1. apply N.eqb_eq in Hi2. destruct (I1 _ _ _ Hp) as (A & B & D).
  split; [exact B|]. intros t Ht. specialize (D Hi2 t Ht). lia.
Qed.

(* ---- C39 ---- *)
(* A subscriber is handed every packet decoded while it is subscribed, once and
   in order, unless its channel does not take it. *)
Theorem C39_every_packet_once : forall evs1 senders evs2,
  existsb ends evs1 = false -> subscriptions (evs1 ++ EvSubscribe senders true :: evs2) < 2 ^ 32 - 1 ->
  exists id, snd (step (after evs1) (EvSubscribe senders true)) = [OSubscribed id] /\
  let s := after (evs1 ++ [EvSubscribe senders true]) in
  (~ In (EvUnsubscribe id) evs2 ->
   (forall closed takes p k, In (closed, takes, p, k) (packets (snd (run s evs2))) -> forallb closed senders = false) ->
   handed id (seen s evs2) = due hash senders (packets (snd (run s evs2)))).
Proof.
  intros evs1 senders evs2 He Hb. rewrite run_app, run_cons. cbn [fst ActorModel.run].
  set (s1 := fst (run actor_new evs1)).
  assert (R : a_run s1 = true) by (unfold s1; rewrite run_run, He; reflexivity).
  assert (ND : NoDup (mkeys (a_subs s1))) by (apply run_NoDup, sub_new).
  rewrite subscriptions_app, subscriptions_cons in Hb. change (is_subscribe (EvSubscribe senders true)) with true in Hb. cbn [negb] in Hb.
  pose proof (run_next fresh dec hash evs1 actor_new) as Hn. fold s1 in Hn. change (a_next actor_new) with 1 in Hn. specialize (Hn ltac:(lia)).
  exists (a_next s1). split; [unfold ActorModel.step; now rewrite R|].
  intros Hu Hcl. apply live_run.
  - now apply step_NoDup.
  - unfold ActorModel.step. rewrite R. cbn. apply (mget_mset_eq _ N.eqb_spec).
  - unfold ActorModel.step. rewrite R. cbn [handle_subscribe fst a_next]. unfold as_u32. rewrite N.mod_small by lia. lia.
  - unfold ActorModel.step. rewrite R. cbn [handle_subscribe fst a_next]. unfold as_u32. rewrite N.mod_small by lia. lia.
  - exact Hu.
  - intros [[[cl tk] p] k] Hx. now apply Hcl in Hx.
Qed.
(* An unsubscribed subscriber is handed nothing any more. *)
Theorem C39_nothing_after_unsubscribe : forall evs1 id evs2, existsb ends evs1 = false ->
  subscriptions (evs1 ++ evs2) < 2 ^ 32 - 1 -> In id (new_ids (seen actor_new evs1)) ->
  handed id (seen (after (evs1 ++ [EvUnsubscribe id])) evs2) = [].
Proof.
  intros evs1 id evs2 He Hb Hi. rewrite run_app, run_cons. cbn [fst ActorModel.run].
  set (s1 := fst (run actor_new evs1)) in *.
  assert (R : a_run s1 = true) by (unfold s1; rewrite run_run, He; reflexivity).
  rewrite subscriptions_app in Hb.
  pose proof (run_next fresh dec hash evs1 actor_new) as Hn. fold s1 in Hn. change (a_next actor_new) with 1 in Hn. specialize (Hn ltac:(lia)).
  assert (Hid : id < a_next s1).
  { pose proof (new_ids_below fresh dec hash evs1 actor_new) as Hbel. fold s1 in Hbel. change (a_next actor_new) with 1 in Hbel. apply Hbel; [lia|exact Hi]. }
  apply gone_run.
  - apply step_NoDup. apply run_NoDup, sub_new.
  - unfold ActorModel.step. rewrite R. cbn. apply mget_mrem_eq.
  - unfold ActorModel.step. rewrite R. cbn. exact Hid.
  - unfold ActorModel.step. rewrite R. cbn. lia.
Qed.
(* A subscriber all of whose channels are closed is forgotten at the next
   packet: it is handed neither that packet nor any later one. *)
Theorem C39_nothing_after_close : forall evs1 senders evs2 evs3 now q b closed takes p k,
  existsb ends (evs1 ++ evs2) = false -> subscriptions (evs1 ++ EvSubscribe senders true :: evs2 ++ evs3) < 2 ^ 32 - 1 ->
  exists id, snd (step (after evs1) (EvSubscribe senders true)) = [OSubscribed id] /\
  let s := after (evs1 ++ EvSubscribe senders true :: evs2) in
  (forallb closed senders = true -> In (ODecoded p k) (snd (step s (EvPacket now q b closed takes))) ->
   handed id (seen s (EvPacket now q b closed takes :: evs3)) = []).
Proof.
  intros evs1 senders evs2 evs3 now q b closed takes p k He Hb.
  rewrite existsb_app in He. apply Bool.orb_false_iff in He. destruct He as [He1 He2].
  rewrite run_app, run_cons. cbn [fst].
  set (s1 := fst (run actor_new evs1)).
  assert (R : a_run s1 = true) by (unfold s1; rewrite run_run, He1; reflexivity).
  assert (ND : NoDup (mkeys (a_subs s1))) by (apply run_NoDup, sub_new).
  rewrite subscriptions_app, subscriptions_cons, subscriptions_app in Hb. change (is_subscribe (EvSubscribe senders true)) with true in Hb. cbn [negb] in Hb.
  pose proof (run_next fresh dec hash evs1 actor_new) as Hn. fold s1 in Hn. change (a_next actor_new) with 1 in Hn. specialize (Hn ltac:(lia)).
  exists (a_next s1). split; [unfold ActorModel.step; now rewrite R|].
  set (s2 := fst (step s1 (EvSubscribe senders true))).
  assert (H2 : mget N.eqb (a_next s1) (a_subs s2) = Some senders /\ a_next s2 = a_next s1 + 1).
  { unfold s2, ActorModel.step. rewrite R. cbn [handle_subscribe fst a_next a_subs]. split; [apply (mget_mset_eq _ N.eqb_spec)|].
    unfold as_u32. rewrite N.mod_small by lia. reflexivity. }
  destruct H2 as [Hm2 Hn2].
  set (s3 := fst (run s2 evs2)).
  pose proof (run_next fresh dec hash evs2 s2 ltac:(lia)) as Hn3. fold s3 in Hn3.
  assert (ND3 : NoDup (mkeys (a_subs s3))) by (apply run_NoDup, step_NoDup, ND).
  assert (Hm3 : mget N.eqb (a_next s1) (a_subs s3) = Some senders \/ mget N.eqb (a_next s1) (a_subs s3) = None).
  { apply same_or_gone; [now apply step_NoDup|exact Hm2|lia|lia]. }
  intros Hcl Hdec. rewrite run_cons. cbn [snd]. rewrite outputs_cons, handed_app.
  destruct (closed_step fresh dec hash (a_next s1) senders s3 now q b closed takes p k ND3 Hm3 Hcl Hdec) as [Hh Hg].
  rewrite Hh. cbn [app].
  pose proof (step_next fresh dec hash s3 (EvPacket now q b closed takes)) as Hn4.
  change (subscriptions [EvPacket now q b closed takes]) with 0 in Hn4. specialize (Hn4 ltac:(lia)).
  apply gone_run; [now apply step_NoDup|exact Hg|lia|lia].
Qed.
(* No two subscriptions get the same id. *)
Theorem C39_ids_never_reused : forall evs, subscriptions evs < 2 ^ 32 - 1 -> NoDup (new_ids (seen actor_new evs)).
Proof.
  intros evs H. apply run_new_ids. change (a_next actor_new) with 1. lia.
Qed.
(* Only subscribers that have been told their id are handed anything. *)
Theorem C39_only_subscribers : forall evs id, subscriptions evs < 2 ^ 32 - 1 -> id <> 0 ->
  handed id (seen actor_new evs) <> [] -> In id (new_ids (seen actor_new evs)).
Proof.
  intros evs id H H0 Hh. 
  destruct (later_run fresh dec hash id evs actor_new) as [E|[E _]]; try assumption; try reflexivity; try (constructor; fail); try congruence.
  - change (a_next actor_new) with 1. lia.
  - change (a_next actor_new) with 1. lia.
Qed.
(* The actor never panics. *)
Theorem C39_never_panics : forall evs, ~ In OPanic (seen actor_new evs).
Proof.
  intros evs. generalize (@ActorModel.actor_new C Chan). induction evs as [|e evs IH]; intros s H; [exact H|].
  rewrite run_cons in H. cbn [snd] in H. rewrite outputs_cons in H. apply in_app_or in H.
  destruct H as [H|H]; [now apply step_no_panic in H|now apply IH in H].
Qed.

(* ---- C63 ---- *)
(* All packets of one address handed to one subscriber go to the same channel. *)
Theorem C63_one_channel_per_address : forall evs id c1 p1 k1 c2 p2 k2, subscriptions evs < 2 ^ 32 - 1 -> id <> 0 ->
  In (c1, p1, k1) (handed id (seen actor_new evs)) -> In (c2, p2, k2) (handed id (seen actor_new evs)) ->
  fst p1 = fst p2 -> c1 = c2.
Proof.
  intros evs id c1 p1 k1 c2 p2 k2 H H0 H1 H2 Hp. 
  destruct (later_run fresh dec hash id evs actor_new) as [E|(_ & ss & Hs)]; try assumption; try reflexivity; try (constructor; fail).
  - change (a_next actor_new) with 1. lia.
  - change (a_next actor_new) with 1. lia.
  - rewrite E in H1. destruct H1.
  - rewrite Forall_forall in Hs. pose proof (Hs _ H1) as E1. pose proof (Hs _ H2) as E2. cbn in E1, E2.
    assert (Hsv : serving hash ss p1 = serving hash ss p2) by (unfold serving; now rewrite Hp). congruence.
Qed.
End Props.
Print Assumptions C37_peers_are_separate.
Print Assumptions C37_own_decoder.
Print Assumptions C37_purged_is_fresh.
Print Assumptions C38_reported_peers_were_idle_partial.
Print Assumptions C39_every_packet_once.
Print Assumptions C39_nothing_after_unsubscribe.
Print Assumptions C39_nothing_after_close.
Print Assumptions C39_ids_never_reused.
Print Assumptions C39_only_subscribers.
Print Assumptions C39_never_panics.
Print Assumptions C63_one_channel_per_address.

(* ---- refuted ---- *)
(* C38: whatever the decoder, a peer that is reported as purged is still known,
   with the decoder state it had, and later purges do not see it any more. *)
Theorem C38_purged_peers_keep_templates_refuted : forall (C Pk : Type) (fresh c : C) (k : Pk) (dec : C -> list N -> C * option Pk) (hash : N -> N) (p : peer) b,
  dec fresh b = (c, Some k) ->
  outputs (snd (run fresh dec hash (@actor_new C N)
    [EvPacket 0 p b (fun _ => false) (fun _ => true); EvPurgeUnused 100 60; EvPurgeUnused 200 60; EvGetPeers; EvGetTemplates p; EvPurgeUnused 300 60]))
  = [ODecoded p k; OCleared []; OCleared [p]; OPeers [p]; OTemplates p (Some c); OCleared []].
Proof.
  intros C Pk fresh c k dec hash p b H.
  cbn -[N.ltb N.eqb N.sub N.add peer_eqb]. unfold handle_packet. cbn -[N.ltb N.eqb N.sub N.add peer_eqb]. rewrite H.
  cbn -[N.ltb N.eqb N.sub N.add peer_eqb]. rewrite peer_eqb_refl. reflexivity.
Qed.
Print Assumptions C38_purged_peers_keep_templates_refuted.
(* and a peer whose datagrams never decode is known for ever *)
Theorem C38_undecodable_peers_stay_refuted : forall (C Pk : Type) (fresh c : C) (dec : C -> list N -> C * option Pk) (hash : N -> N) (p : peer) b,
  dec fresh b = (c, None) -> forall n now,
  outputs (snd (run fresh dec hash (@actor_new C N) (EvPacket 0 p b (fun _ => false) (fun _ => true) :: repeat (EvPurgeUnused now 0) n ++ [EvGetPeers])))
  = OIgnored p :: repeat (OCleared []) n ++ [OPeers [p]].
Proof.
  intros C Pk fresh c dec hash p b H n now. rewrite run_cons. cbn [snd]. rewrite outputs_cons.
  assert (Hs : step fresh dec hash (@actor_new C N) (EvPacket 0 p b (fun _ => false) (fun _ => true)) = (mkActor 1 [] [] [(p, c)] true, [OIgnored p])).
  { cbn. unfold handle_packet. cbn. now rewrite H. }
  rewrite Hs. cbn [fst snd app]. f_equal. clear H Hs.
  induction n as [|n IH]; [reflexivity|]. cbn [repeat app]. rewrite run_cons. cbn [snd]. rewrite outputs_cons.
  change (fst (step fresh dec hash (mkActor 1 [] [] [(p, c)] true) (EvPurgeUnused now 0))) with (mkActor 1 (@nil (N * list N)) [] [(p, c)] true).
  rewrite IH. reflexivity.
Qed.
Print Assumptions C38_undecodable_peers_stay_refuted.
(* C39: the id counter has 32 bits and wraps (in a build without overflow
   checks): the same id is given out twice *)
Theorem C39_id_wrap_refuted : exists evs : list (event N),
  ~ NoDup (new_ids (outputs (snd (run tt (fun c (_ : list N) => (c, @None N)) (fun x => x) actor_new evs)))).
Proof.
  exists (repeat (EvSubscribe [] true) (N.to_nat (2 ^ 32 + 1))).
  intros H. apply (wrap_ids tt _ _) in H. exact H.
Qed.
Print Assumptions C39_id_wrap_refuted.

(* ---- non-vacuity ---- *)
(* a decoder that counts the datagrams and rejects empty ones *)
Definition ex_dec (c : N) (b : list N) : N * option N := match b with [] => (c, None) | x :: _ => (c + 1, Some (c * 100 + x)) end.
Definition ex_p : peer := (10, 4739).
Definition ex_q : peer := (11, 4739).
Definition yes (_ : N) : bool := true.
Definition no (_ : N) : bool := false.
Definition ex_evs : list (event N) :=
  [EvSubscribe [7; 8] true; EvPacket 1 ex_p [5] no yes; EvPacket 2 ex_q [6] no yes; EvSubscribe [9] true;
   EvPacket 3 ex_p [1] no (fun c => negb (c =? 9)); EvPacket 4 ex_p [] no yes; EvPurgePeer ex_p; EvPacket 5 ex_p [2] (fun c => c =? 9) yes;
   EvUnsubscribe 1; EvPacket 6 ex_q [3] no yes].
Example C37_nonvacuous :
  filter (about ex_p) (outputs (snd (run 0 ex_dec (fun x => x) actor_new ex_evs))) = [ODecoded ex_p 5; ODecoded ex_p 101; OIgnored ex_p; ODecoded ex_p 2].
Proof. vm_compute. reflexivity. Qed.
Example C38_nonvacuous :
  let evs : list (event N) := [EvPacket 0 ex_p [5] no yes; EvPurgeUnused 100 60] in
  snd (step 0 ex_dec (fun x => x) (fst (run 0 ex_dec (fun x => x) actor_new evs)) (EvPurgeUnused 200 60)) = [OCleared [ex_p]].
Proof. vm_compute. reflexivity. Qed.
Example C39_nonvacuous :
  handed 1 (outputs (snd (run 0 ex_dec (fun x => x) actor_new ex_evs))) = [(7, ex_p, 5); (8, ex_q, 6); (7, ex_p, 101); (7, ex_p, 2)] /\
  handed 2 (outputs (snd (run 0 ex_dec (fun x => x) actor_new ex_evs))) = [].
Proof. vm_compute. split; reflexivity. Qed.
