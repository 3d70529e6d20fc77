(* C27-C31, C68-C79: the BGP speaker. *)
From Coq Require Import Permutation.
From Verif Require Import Base AfModel BgpCapModel BgpFrameModel BgpNlriModel BgpAttrModel BgpMsgModel SpModel SpSpec SpProofs SpPeerProofs.

(* ---- examples: a speaker with the default timers and its peer ---- *)
Definition ex_third (n : N) : N := n * 333333333.
Definition ex_jit (n : N) : N := n.
Definition ex_conf : cconf := mkCf true 0 180 240 60.
Definition ex_delay : cconf := mkCf true 5 180 240 60.
Definition my_id : N := 167772161.
Definition peer_id : N := 167772162.
Definition ex_open : open_msg := mkOpen 65001 180 my_id [].
Definition ex_peer_open : open_msg := mkOpen 65002 90 peer_id [].
Definition ex_attr (v : attr_value) : pattr := mkPattr false true false false v.
Definition ex_net : net := ([10; 0; 0; 0], 8).
Definition ex_update : update_msg :=
  mkUpdate [] [ex_attr (AOrigin 0); ex_attr (AAsPath false []); ex_attr (ANextHop peer_id)] [(None, ex_net)].
Definition ex_update' : update_msg :=
  mkUpdate [] [ex_attr (ANextHop peer_id); ex_attr (AOrigin 0); ex_attr (AAsPath false [])] [(None, ex_net)].
Definition recv (m : bgp_msg) : cact := CPoll (Some (IMsg m [])) true.
Definition idle_poll : cact := CPoll None true.

(* ---- C27 ---- *)
(* In OpenConfirm and Established the OPEN received gives the negotiated hold
   time; if it is not zero a timer of that time runs, started by the last OPEN
   or KEEPALIVE received. Missing: received UPDATEs do not restart it. *)
Theorem C27_hold_timer_partial third jit my_open pa ty cf t0 w xs c h :
  life third jit my_open pa ty cf t0 w xs = (c, h) -> up (c_state c) ->
  exists o, last_open h = Some o /\
  (negotiated cf o <> 0 ->
   exists t, last_time refreshes h = Some t /\ c_hold c = Some (mkT (secs (negotiated cf o)) (t + secs (negotiated cf o)))).
Proof. intros E Hu. exact (proj2 (held_life third jit my_open _ _ _ _ _ _ _ _ E) Hu). Qed.
Print Assumptions C27_hold_timer_partial.

(* It fires when it runs out and not before, and then the session is closed
   with the NOTIFICATION of an expired hold timer. *)
Theorem C27_expiry third jit my_open pa ty cf t0 w xs c h o t now :
  life third jit my_open pa ty cf t0 w xs = (c, h) -> up (c_state c) ->
  last_open h = Some o -> negotiated cf o <> 0 -> last_time refreshes h = Some t ->
  (forall i e c1, now < t + secs (negotiated cf o) -> poll now i c = Some (e, c1) -> e <> EvHold) /\
  (forall i, t + secs (negotiated cf o) <= now -> due now (c_ka c) = false -> due now (c_delay c) = false ->
   exists c2, cstep third jit my_open c now (CPoll i true) =
     (c2, [mkE now (Some EvHold) None [MNotification (mkNotif 4 0 [])] (c_state c) Terminate])).
Proof.
  intros E Hu Ho Hn Ht. destruct (proj2 (held_life third jit my_open _ _ _ _ _ _ _ _ E) Hu) as (o' & Ho' & H).
  rewrite Ho in Ho'. injection Ho' as <-. destruct (H Hn) as (t' & Ht' & Hc). rewrite Ht in Ht'. injection Ht' as <-. split.
  - intros i e c1 Hlt. unfold poll. rewrite Hc. cbn [due start_timer t_deadline].
    destruct (due now (c_ka c)); [intros P; inversion P; discriminate|].
    destruct (due now (c_delay c)); [intros P; inversion P; discriminate|].
    destruct (N.leb_spec (t + secs (negotiated cf o)) now); [lia|].
    destruct i as [i|]; [|discriminate]. intros P. injection P as P. intros ->.
    destruct i as [m errs|x| | |]; cbn in P; [destruct m as [o2|u|n| |r]|..]; inversion P as [[P1 P2]]; try discriminate.
    + unfold open_event in P1. destruct (c_peer_asn c) as [a|]; [destruct (a =? my_asn4 o2); [|discriminate]|]; destruct (c_delay c); discriminate.
    + unfold update_event in P1. repeat match type of P1 with context [if ?b then _ else _] => destruct b end; discriminate.
    + destruct (_ && _); discriminate.
    + destruct x as [| | | | |[]]; discriminate.
  - intros i Hle Hk Hd. unfold cstep, poll. rewrite Hk, Hd, Hc. cbn [due start_timer t_deadline].
    destruct (N.leb_spec (t + secs (negotiated cf o)) now); [|lia].
    unfold handle_event. cbn [c_state with_hold]. destruct Hu as [S|S]; rewrite S; eexists; reflexivity.
Qed.
Print Assumptions C27_expiry.

(* A peer that sends an UPDATE every minute, but no KEEPALIVE, is closed 90
   seconds after its KEEPALIVE although the last UPDATE is 30 seconds old. *)
Definition ex_busy_peer : list (N * cact) :=
  [(secs 1, recv (MOpen ex_peer_open)); (secs 2, recv MKeepAlive); (secs 25, idle_poll); (secs 50, idle_poll);
   (secs 60, recv (MUpdate ex_update')); (secs 62, recv (MUpdate ex_update')); (secs 80, idle_poll); (secs 92, idle_poll)].
Theorem C27_updates_do_not_restart_refuted :
  ~ (forall third jit my_open pa ty cf t0 w xs c h o t,
      life third jit my_open pa ty cf t0 w xs = (c, h) -> up (c_state c) ->
      last_open h = Some o -> negotiated cf o <> 0 -> last_time refreshes_rfc h = Some t ->
      c_hold c = Some (mkT (secs (negotiated cf o)) (t + secs (negotiated cf o)))).
Proof.
  intros H.
  set (r := life ex_third ex_jit ex_open (Some 65002) CActive ex_conf 0 true (firstn 6 ex_busy_peer)).
  specialize (H ex_third ex_jit ex_open (Some 65002) CActive ex_conf 0 true (firstn 6 ex_busy_peer) (fst r) (snd r) ex_peer_open (secs 62)).
  assert (E : life ex_third ex_jit ex_open (Some 65002) CActive ex_conf 0 true (firstn 6 ex_busy_peer) = (fst r, snd r)) by (subst r; apply surjective_pairing).
  assert (K : c_hold (fst r) = Some (mkT (secs 90) (secs 92))) by (vm_compute; reflexivity).
  assert (S : c_state (fst r) = Established) by (vm_compute; reflexivity).
  assert (O : last_open (snd r) = Some ex_peer_open) by (vm_compute; reflexivity).
  assert (T : last_time refreshes_rfc (snd r) = Some (secs 62)) by (vm_compute; reflexivity).
  rewrite K in H. specialize (H E (or_intror S) O ltac:(discriminate) T). discriminate H.
Qed.
Print Assumptions C27_updates_do_not_restart_refuted.
Example C27_session_lost :
  map (fun e => (e_time e, e_after e)) (skipn 6 (snd (life ex_third ex_jit ex_open (Some 65002) CActive ex_conf 0 true ex_busy_peer)))
  = [(secs 80, Established); (secs 92, Terminate)].
Proof. vm_compute. reflexivity. Qed.
Example C27_nonvacuous :
  let r := life ex_third ex_jit ex_open (Some 65002) CActive ex_conf 0 true (firstn 3 ex_busy_peer) in
  c_state (fst r) = Established /\ last_open (snd r) = Some ex_peer_open /\ negotiated ex_conf ex_peer_open = 90 /\
  last_time refreshes (snd r) = Some (secs 2).
Proof. repeat split; reflexivity. Qed.

(* ---- C28 ---- *)
(* While writes succeed, every step of a connection is one of RFC 4271, and the
   history is a chain of such steps. *)
Theorem C28_rfc_transitions third jit my_open c xs c' h :
  Forall writable xs -> crun third jit my_open c xs = (c', h) ->
  (forall e, In e h -> match e_event e with Some ev => In (e_after e) (rfc_next (e_before e) ev) | None => e_after e = e_before e end) /\
  (forall i e, nth_error h i = Some e ->
     e_before e = match i with O => c_state c | S j => match nth_error h j with Some p => e_after p | None => Terminate end end) /\
  last (map e_after h) (c_state c) = c_state c'.
Proof.
  intros Hw E. pose proof (steps_run _ _ _ _ _ _ _ Hw E) as Hs. split.
  - apply Forall_forall. exact Hs.
  - exact (chain_run _ _ _ _ _ _ _ E).
Qed.
Print Assumptions C28_rfc_transitions.
(* When writes fail a step can only leave the connection where it is. *)
Theorem C28_failed_writes third jit my_open now w e c c' ms ok :
  handle_event third jit now my_open w e c = (c', ms, ok) ->
  In (c_state c') (rfc_next (c_state c) e) \/ c_state c' = c_state c.
Proof. apply handle_next_failed. Qed.
Print Assumptions C28_failed_writes.
(* Established is reached only by the handshake, whatever fails. *)
Theorem C28_established_after_handshake third jit my_open pa ty cf t0 w xs c h :
  life third jit my_open pa ty cf t0 w xs = (c, h) -> c_state c = Established -> handshake my_open pa h.
Proof. intros E S. destruct (est_life third jit my_open _ _ _ _ _ _ _ _ E) as [_ H]. rewrite S in H. exact H. Qed.
Print Assumptions C28_established_after_handshake.
(* The state of the peer is the state of its connection, if the peer takes no
   connection while it is idle. *)
Theorem C28_peer_state_partial third jit my_open cf xs :
  not_in_idle third jit my_open (peer_new cf) xs ->
  let p := fst (run third jit my_open (peer_new cf) xs) in
  p_alive p = true -> agree (p_fsm p) (p_conn p).
Proof. intros Hx p Ha. exact (proj1 (run_inv third jit my_open xs _ Hx (new_inv cf) Ha)). Qed.
Print Assumptions C28_peer_state_partial.
(* the state reported with an event is the state of the peer *)
Theorem C28_reported_state third jit my_open p x p' o f e :
  step third jit my_open p x = (p', o) -> In (PEvent f e) o -> f = p_fsm p'.
Proof. intros E. exact (step_reports third jit my_open p x p' o E f e). Qed.
Print Assumptions C28_reported_state.

(* An idle peer that is administratively up takes a connection; a start after
   that sets the retry timer, and when it ticks the session is dropped but the
   peer stays in OpenSent for ever. *)
Definition ex_pconf (cf : cconf) : pconf := mkPf cf false false (Some 65002) my_id.
Definition ex_idle_accept : list pinput :=
  [PCommand ManualStart; PAdmin 0 true; PConnect 1 true true; PMain 2 (Some (IMsg MKeepAlive [])) true;
   PCommand Incoming; PAdmin 3 true; PCommand ManualStart; PAdmin 4 true; PMain (secs 6) None true; PRetry].
Theorem C28_peer_state_refuted :
  ~ (forall third jit my_open cf xs,
      let p := fst (run third jit my_open (peer_new cf) xs) in
      p_alive p = true -> agree (p_fsm p) (p_conn p)).
Proof.
  intros H. specialize (H ex_third ex_jit ex_open (ex_pconf ex_delay) ex_idle_accept eq_refl).
  assert (K : let p := fst (run ex_third ex_jit ex_open (peer_new (ex_pconf ex_delay)) ex_idle_accept) in p_fsm p = FOpenSent /\ p_conn p = None)
    by (split; reflexivity).
  destruct K as [K1 K2]. cbv zeta in H. rewrite K1, K2 in H. destruct H as [H|[H|H]]; discriminate H.
Qed.
Print Assumptions C28_peer_state_refuted.
Definition ex_session : list pinput :=
  [PCommand ManualStart; PAdmin 0 true; PConnect 1 true true; PMain 2 (Some (IMsg (MOpen ex_peer_open) [])) true;
   PMain 3 (Some (IMsg MKeepAlive [])) true].
Example C28_nonvacuous :
  c_state (fst (life ex_third ex_jit ex_open (Some 65002) CActive ex_conf 0 true ex_busy_peer)) = Terminate /\
  c_state (fst (life ex_third ex_jit ex_open (Some 65002) CActive ex_conf 0 true (firstn 5 ex_busy_peer))) = Established /\
  Forall writable ex_busy_peer /\
  not_in_idle ex_third ex_jit ex_open (peer_new (ex_pconf ex_conf)) ex_session /\
  (let p := fst (run ex_third ex_jit ex_open (peer_new (ex_pconf ex_conf)) ex_session) in p_alive p = true /\ p_fsm p = FEstablished).
Proof.
  split; [vm_compute; reflexivity|]. split; [vm_compute; reflexivity|]. split; [repeat constructor|]. split; [|split; vm_compute; reflexivity].
  vm_compute. repeat split. all: discriminate.
Qed.

(* ---- C29 ---- *)
(* An UPDATE that announces IPv4 routes with ORIGIN, AS_PATH and NEXT_HOP is
   accepted exactly if a NEXT_HOP is reached before both others have been seen.
   Missing: the other orders. *)
Theorem C29_accepted_orders_partial u errs :
  u_nlri u <> [] -> has origin (u_attrs u) -> has any_path (u_attrs u) ->
  ~ has mp_reach (u_attrs u) -> ~ has mp_unreach (u_attrs u) ->
  (accepted u errs <->
   exists l a r, u_attrs u = l ++ a :: r /\ next_hop (pa_val a) = true /\ ~ (has origin l /\ has any_path l)).
Proof. apply accepted_iff. Qed.
Print Assumptions C29_accepted_orders_partial.
(* An accepted UPDATE in Established is reported with its treatment, and the
   peer stays as it is. *)
Theorem C29_reported_partial third jit my_open p c u errs w now t :
  p_alive p = true -> p_fsm p = FEstablished -> p_conn p = Some c -> c_state c = Established -> p_tracked p = None ->
  due now (c_ka c) = false -> due now (c_delay c) = false -> due now (c_hold c) = false ->
  update_event u errs = EvUpdate u t ->
  exists p', step third jit my_open p (PMain now (Some (IMsg (MUpdate u) errs)) w) = (p', [PEvent FEstablished (BConn (EvUpdate u t))])
    /\ p_conn p' = Some c /\ p_fsm p' = FEstablished /\ p_alive p' = true.
Proof.
  intros Ha Hf Hc S Ht D1 D2 D3 U. unfold step. rewrite Ha. cbn [negb]. unfold main_ready. rewrite Hc. unfold poll. rewrite D1, D2, D3.
  cbn [input_event]. rewrite U. unfold seen. rewrite Ht.
  assert (check_collision (pf_my_id (p_conf p)) (Some c) (if p_hidden p then None else None) = None) as -> by (destruct (p_hidden p); reflexivity).
  unfold handle_main, handle_event. rewrite S. cbn. rewrite S. cbn. rewrite Hf. eexists. split; [reflexivity|]. cbn. auto.
Qed.
Print Assumptions C29_reported_partial.
(* With the usual order of attributes, that of RFC 4271, no announcement of
   IPv4 routes is ever accepted: the session is closed, without NOTIFICATION. *)
Theorem C29_usual_order_refuted third jit my_open u errs a1 v2 s a3 rest :
  u_nlri u <> [] -> map pa_val (u_attrs u) = AOrigin a1 :: AAsPath v2 s :: ANextHop a3 :: rest ->
  ~ accepted u errs /\
  forall now w c, c_state c = Established -> due now (c_ka c) = false -> due now (c_delay c) = false -> due now (c_hold c) = false ->
  exists e c2, cstep third jit my_open c now (CPoll (Some (IMsg (MUpdate u) errs)) w) =
     (c2, [mkE now (Some (EvUpdateErr e)) (Some (MUpdate u)) [] Established Terminate]).
Proof.
  intros Hn Ha.
  assert (U : update_event u errs = EvUpdateErr (mkNotif 3 3 [3])).
  { unfold update_event. destruct (u_attrs u) as [|b1 [|b2 [|b3 bs]]]; cbn in Ha; try discriminate. inversion Ha as [[E1 E2 E3 E4]].
    assert (He : end_of_rib u = false) by (unfold end_of_rib; destruct (u_nlri u); [contradiction|reflexivity]).
    cbn. rewrite E1. cbn. rewrite E2. cbn. rewrite He. cbn. destruct (u_nlri u); [contradiction|reflexivity]. }
  split; [intros (t & H); congruence|].
  intros now w c S D1 D2 D3. unfold cstep, poll. rewrite D1, D2, D3. cbn [input_event]. rewrite U.
  unfold handle_event. rewrite S. cbn. do 2 eexists. reflexivity.
Qed.
Print Assumptions C29_usual_order_refuted.
Example C29_nonvacuous :
  accepted ex_update' [] /\ ~ accepted ex_update [] /\ Permutation (u_attrs ex_update) (u_attrs ex_update') /\
  (let p := fst (run ex_third ex_jit ex_open (peer_new (ex_pconf ex_conf)) ex_session) in
   snd (step ex_third ex_jit ex_open p (PMain 4 (Some (IMsg (MUpdate ex_update') [])) true)) = [PEvent FEstablished (BConn (EvUpdate ex_update' TNormal))] /\
   snd (step ex_third ex_jit ex_open p (PMain 4 (Some (IMsg (MUpdate ex_update) [])) true)) = [PEvent Idle (BConn (EvUpdateErr (mkNotif 3 3 [3])))]).
Proof.
  split; [eexists; reflexivity|]. split; [intros (t & H); discriminate|]. split; [|split; reflexivity].
  exact (Permutation_sym (Permutation_cons_append [ex_attr (AOrigin 0); ex_attr (AAsPath false [])] (ex_attr (ANextHop peer_id)))).
Qed.

(* ---- C30 ---- *)
(* Two speakers with distinct identifiers, each with its own connection as main
   one and the connection of the other as second, both OPENs received on each:
   both keep the connection initiated by the speaker with the higher identifier.
   Missing: a speaker whose main connection is the one it accepted. *)
Theorem C30_same_connection_partial ia ib ma ta mb tb :
  ia <> ib ->
  initiator SpA ma = SpA -> initiator SpA ta = SpB -> initiator SpB mb = SpB -> initiator SpB tb = SpA ->
  c_peer_id ma = Some ib -> c_peer_id ta = Some ib -> c_peer_id mb = Some ia -> c_peer_id tb = Some ia ->
  exists da db, check_collision ia (Some ma) (Some ta) = Some da /\ check_collision ib (Some mb) (Some tb) = Some db /\
    initiator SpA (keeps da ma ta) = (if ia <? ib then SpB else SpA) /\
    initiator SpB (keeps db mb tb) = (if ia <? ib then SpB else SpA).
Proof.
  intros Hd T1 T2 T3 T4. apply (collision_own (fun n => n) (fun n => n)); [exact Hd| | | |];
    unfold initiator in *; match goal with |- c_type ?c = _ => destruct (c_type c); [try reflexivity; discriminate|try reflexivity; discriminate] end.
Qed.
Print Assumptions C30_same_connection_partial.
(* Speaker A (lower identifier) connects and then accepts; speaker B accepts
   first, while waiting to send its OPEN, and then connects. A keeps the
   connection of B, B keeps the connection of A: both are lost. *)
Definition ex_a_open : open_msg := mkOpen 65001 180 my_id [].
Definition ex_b_open : open_msg := mkOpen 65002 180 peer_id [].
Definition ex_a : list pinput :=
  [PCommand ManualStart; PAdmin 0 true; PConnect 1 true true; PCommand Incoming; PAdmin 2 true;
   PMain 3 (Some (IMsg (MOpen ex_b_open) [])) true; PTracked 4 (Some (IMsg (MOpen ex_b_open) [])) true].
Definition ex_b : list pinput :=
  [PCommand ManualStart; PAdmin 0 true; PCommand Incoming; PAdmin 1 true; PConnect 2 true true;
   PMain 3 (Some (IMsg (MOpen ex_a_open) [])) true; PTracked 4 (Some (IMsg (MOpen ex_a_open) [])) true].
Theorem C30_accepted_first_refuted :
  let a := fst (run ex_third ex_jit ex_a_open (peer_new (mkPf ex_conf false false (Some 65002) my_id)) ex_a) in
  let b := fst (run ex_third ex_jit ex_b_open (peer_new (mkPf ex_delay false false (Some 65001) peer_id)) ex_b) in
  exists ca cb, p_conn a = Some ca /\ p_tracked a = None /\ p_conn b = Some cb /\ p_tracked b = None /\
    initiator SpA ca = SpB /\ initiator SpB cb = SpA /\ p_fsm a = FOpenConfirm /\ p_fsm b = FOpenConfirm.
Proof. vm_compute. do 2 eexists. repeat split. Qed.
Print Assumptions C30_accepted_first_refuted.
Example C30_nonvacuous :
  let c ty i := with_peer_id i (conn_new None ty ex_conf) in
  exists da db, check_collision my_id (Some (c CActive peer_id)) (Some (c CPassive peer_id)) = Some da /\
                check_collision peer_id (Some (c CActive my_id)) (Some (c CPassive my_id)) = Some db /\ da = DropMain /\ db = DropTracked.
Proof. cbv zeta. do 2 eexists. repeat split. Qed.

(* ---- C31 ---- *)
Theorem C31_most_severe es e : In e es -> milder (asks e) (update_treatment es).
Proof. apply treatment_most_severe. Qed.
Print Assumptions C31_most_severe.
(* the treatment is one an error asks for (BGP-LS routes: see below) *)
Theorem C31_asked_for es : Forall (fun e => bgpls_nlri e = false) es ->
  update_treatment es = TNormal \/ exists e, In e es /\ update_treatment es = asks e.
Proof. apply fold_from. Qed.
Print Assumptions C31_asked_for.
(* the order of the errors does not change the treatment, except for which of
   several address families is reset *)
Theorem C31_order_partial es es' : Permutation es es' ->
  update_treatment es = update_treatment es' \/
  exists a s b r, update_treatment es = TResetFamily a s /\ update_treatment es' = TResetFamily b r.
Proof. intros H. apply rank_inj, treatment_perm_rank, H. Qed.
Print Assumptions C31_order_partial.
Theorem C31_first_family_only_refuted :
  ~ (forall es es', Permutation es es' -> update_treatment es = update_treatment es').
Proof.
  intros H. specialize (H [UMpReach (MpNlri Ipv6Unicast); UMpUnreach (MpNlri L2VpnBgpEvpn)] [UMpUnreach (MpNlri L2VpnBgpEvpn); UMpReach (MpNlri Ipv6Unicast)] (perm_swap _ _ _)).
  discriminate H.
Qed.
Print Assumptions C31_first_family_only_refuted.
(* an error in BGP-LS routes resets the route target family instead *)
Theorem C31_bgpls_resets_another_family_refuted :
  update_treatment [UMpReach (MpNlri BgpLs)] = TResetFamily (at_afi RouteTargetConstrains) (at_safi RouteTargetConstrains) /\
  update_treatment [UMpReach (MpNlri BgpLs)] <> asks (UMpReach (MpNlri BgpLs)).
Proof. split; [reflexivity|discriminate]. Qed.
Print Assumptions C31_bgpls_resets_another_family_refuted.
Example C31_nonvacuous :
  update_treatment [UAggregator; UMpReach (MpNlri Ipv6Unicast); UOrigin] = TResetFamily 2 1 /\
  update_treatment [UAggregator; UOrigin; UFlagPartial] = TWithdraw /\ ~ milder TWithdraw TDiscard /\ ~ milder TReset (TResetFamily 2 1).
Proof. repeat split; try reflexivity; intros H; inversion H. Qed.

(* ---- C68 ---- *)
(* Without a large hold time for the handshake, no hold timer is left when the
   negotiated hold time is zero. Missing: with one, the default. *)
Theorem C68_zero_hold_time_partial third jit my_open pa ty cf t0 xs c h o :
  cf_large cf = 0 -> Forall writable xs -> life third jit my_open pa ty cf t0 true xs = (c, h) -> up (c_state c) ->
  last_open h = Some o -> negotiated cf o = 0 ->
  c_hold c = None /\ forall now i e c1, poll now i c = Some (e, c1) -> e <> EvHold.
Proof.
  intros HL Hw E Hu Ho Hz. destruct (untimed_life third jit my_open _ _ _ _ _ _ _ HL Hw E) as (_ & _ & H).
  destruct (H Hu) as (o' & Ho' & Hn). rewrite Ho in Ho'. injection Ho' as <-. split; [exact (Hn Hz)|].
  intros now i e c1. apply poll_no_hold, Hn, Hz.
Qed.
Print Assumptions C68_zero_hold_time_partial.
(* With hold time zero on both sides the session is closed four minutes after
   the last KEEPALIVE. *)
Definition ex_zero : cconf := mkCf true 0 0 240 0.
Definition ex_zero_open : open_msg := mkOpen 65002 0 peer_id [].
Theorem C68_session_closed_refuted :
  exists xs c h, Forall writable xs /\
    life ex_third ex_jit ex_open (Some 65002) CActive ex_zero 0 true xs = (c, h) /\
    last_open h = Some ex_zero_open /\ negotiated ex_zero ex_zero_open = 0 /\
    exists h1 e1 e2, h = h1 ++ [e1; e2] /\ e_after e1 = Established /\
      e_event e2 = Some EvHold /\ e_sent e2 = [MNotification (mkNotif 4 0 [])] /\ e_after e2 = Terminate.
Proof.
  set (xs := [(secs 1, recv (MOpen ex_zero_open)); (secs 2, recv MKeepAlive); (secs 100, recv (MUpdate ex_update')); (secs 242, idle_poll)]).
  pose (r := life ex_third ex_jit ex_open (Some 65002) CActive ex_zero 0 true xs).
  exists xs, (fst r), (snd r). split; [repeat constructor|]. split; [apply surjective_pairing|].
  split; [vm_compute; reflexivity|]. split; [reflexivity|].
  exists (firstn 3 (snd r)), (nth 3 (snd r) (mkE 0 None None [] Connected Connected)), (nth 4 (snd r) (mkE 0 None None [] Connected Connected)).
  vm_compute. repeat split.
Qed.
Print Assumptions C68_session_closed_refuted.
Example C68_nonvacuous :
  let r := life ex_third ex_jit ex_open (Some 65002) CActive (mkCf true 0 0 0 0) 0 true
             [(secs 1, recv (MOpen ex_zero_open)); (secs 2, recv MKeepAlive)] in
  c_state (fst r) = Established /\ last_open (snd r) = Some ex_zero_open.
Proof. vm_compute. split; reflexivity. Qed.

(* ---- C69 ---- *)
(* Once up, with a hold time that is not zero, the keepalive timer was started
   by the last UPDATE or KEEPALIVE sent; when it has run out the next poll
   sends a KEEPALIVE and changes nothing else. *)
Theorem C69_keepalives_are_sent third jit my_open pa ty cf t0 xs c h o :
  (forall n, n <> 0 -> third n <> 0) -> Forall writable xs ->
  life third jit my_open pa ty cf t0 true xs = (c, h) -> up (c_state c) -> last_open h = Some o -> negotiated cf o <> 0 ->
  exists t, last_time sends_alive h = Some t /\
  c_ka c = Some (mkT (jit (third (negotiated cf o))) (t + jit (third (negotiated cf o)))) /\
  forall now i, t + jit (third (negotiated cf o)) <= now ->
  exists c2, cstep third jit my_open c now (CPoll i true) = (c2, [mkE now (Some EvKeep) None [MKeepAlive] (c_state c) (c_state c)]).
Proof.
  intros H3 Hw E Hu Ho Hn. destruct (proj2 (kept_life third jit my_open _ _ _ _ _ _ _ H3 Hw E) Hu) as (o' & Ho' & H).
  rewrite Ho in Ho'. injection Ho' as <-. destruct (H Hn) as (t & Ht & Hk). exists t. split; [exact Ht|]. split; [exact Hk|].
  intros now i Hle. unfold cstep, poll. rewrite Hk. cbn [due start_timer t_deadline].
  destruct (N.leb_spec (t + jit (third (negotiated cf o))) now); [|lia].
  unfold handle_event. cbn [c_state with_ka]. destruct Hu as [S|S]; rewrite S; cbn; rewrite S; eexists; reflexivity.
Qed.
Print Assumptions C69_keepalives_are_sent.
Example C69_nonvacuous :
  (forall n, n <> 0 -> ex_third n <> 0) /\
  (let r := life ex_third ex_jit ex_open (Some 65002) CActive ex_conf 0 true (firstn 2 ex_busy_peer) in
   c_state (fst r) = Established /\ last_open (snd r) = Some ex_peer_open).
Proof. split; [intros n H; unfold ex_third; lia|split; reflexivity]. Qed.

(* ---- C70 ---- *)
(* No UPDATE that only withdraws IPv4 routes is accepted. *)
Theorem C70_withdrawals_refuted u errs :
  u_withdrawn u <> [] -> u_attrs u = [] -> u_nlri u = [] ->
  update_event u errs = EvUpdateErr (mkNotif 3 3 [1]) /\ ~ accepted u errs.
Proof. intros H1 H2 H3. rewrite (withdraw_rejected u errs H1 H2 H3). split; [reflexivity|]. intros (t & H). rewrite (withdraw_rejected u errs H1 H2 H3) in H. discriminate. Qed.
Print Assumptions C70_withdrawals_refuted.
Example C70_nonvacuous : let u := mkUpdate [(None, ex_net)] [] [] in u_withdrawn u <> [] /\ u_attrs u = [] /\ u_nlri u = [].
Proof. repeat split. discriminate. Qed.

(* ---- C71 ---- *)
(* A missing ORIGIN or AS_PATH is found in every order. Missing: NEXT_HOP (see
   C29) and repeated attributes. *)
Theorem C71_missing_found_partial u errs :
  end_of_rib u = false -> (~ has origin (u_attrs u) \/ ~ has any_path (u_attrs u)) -> ~ accepted u errs.
Proof. apply missing_rejected. Qed.
Print Assumptions C71_missing_found_partial.
(* Two MP_REACH_NLRI after ORIGIN and AS_PATH go unnoticed, before them they do
   not. *)
Theorem C71_order_matters_refuted :
  ~ (forall u u' errs, Permutation (u_attrs u) (u_attrs u') -> u_withdrawn u = u_withdrawn u' -> u_nlri u = u_nlri u' ->
      (accepted u errs <-> accepted u' errs)).
Proof.
  set (m := ex_attr (AMpReach (MrUnknown 2 1 []))). set (a := ex_attr (AOrigin 0)). set (b := ex_attr (AAsPath false [])).
  intros H. destruct (H (mkUpdate [] [a; b; m; m] []) (mkUpdate [] [m; m; a; b] []) [] (Permutation_app_comm [a; b] [m; m]) eq_refl eq_refl) as [K _].
  destruct K as (t & K); [eexists; reflexivity|]. discriminate K.
Qed.
Print Assumptions C71_order_matters_refuted.
Example C71_nonvacuous :
  let u := mkUpdate [] [ex_attr (ANextHop peer_id); ex_attr (AOrigin 0)] [(None, ex_net)] in
  end_of_rib u = false /\ ~ has any_path (u_attrs u).
Proof. split; [reflexivity|]. intros (a & [<-|[<-|[]]] & H); discriminate. Qed.

(* ---- C72 ---- *)
(* In OpenSent and OpenConfirm every message that cannot be decoded, other than
   a NOTIFICATION, closes the session with a NOTIFICATION: that of the error for
   header and OPEN, a state machine error for the messages not expected yet.
   Missing: Established. *)
Theorem C72_notification_partial third jit my_open now c e :
  c_state c = OpenSent \/ c_state c = OpenConfirm ->
  due now (c_ka c) = false -> due now (c_delay c) = false -> due now (c_hold c) = false ->
  (forall x, e <> BE_Body (ENotif x)) ->
  exists c2 ev n, cstep third jit my_open c now (CPoll (Some (IErr e)) true) =
    (c2, [mkE now (Some ev) None [MNotification n] (c_state c) Terminate]) /\
    match e with
    | BE_Body (EUpdate _) | BE_Body (ERefresh _) => n_code n = 5
    | _ => n = notif_of e
    end.
Proof.
  intros Hs D1 D2 D3 He. unfold cstep, poll. rewrite D1, D2, D3. cbn [input_event]. unfold handle_event.
  destruct Hs as [S|S]; rewrite S; (destruct e as [| | | | |[]]; try (exfalso; eapply He; reflexivity));
    do 3 eexists; (split; [reflexivity|reflexivity]).
Qed.
Print Assumptions C72_notification_partial.
(* In Established no such message is answered with a NOTIFICATION. *)
Theorem C72_established_refuted third jit my_open now w c e :
  c_state c = Established ->
  due now (c_ka c) = false -> due now (c_delay c) = false -> due now (c_hold c) = false ->
  (forall x, e <> BE_Body (ENotif x)) ->
  exists c2 ev, cstep third jit my_open c now (CPoll (Some (IErr e)) w) = (c2, [mkE now (Some ev) None [] Established Terminate]).
Proof.
  intros S D1 D2 D3 He. unfold cstep, poll. rewrite D1, D2, D3. cbn [input_event]. unfold handle_event. rewrite S.
  destruct e as [| | | | |[]]; try (exfalso; eapply He; reflexivity); do 2 eexists; reflexivity.
Qed.
Print Assumptions C72_established_refuted.
Example C72_nonvacuous :
  let c := fst (life ex_third ex_jit ex_open (Some 65002) CActive ex_conf 0 true [(secs 1, recv (MOpen ex_peer_open))]) in
  c_state c = OpenConfirm /\ due (secs 2) (c_ka c) = false /\ due (secs 2) (c_delay c) = false /\ due (secs 2) (c_hold c) = false.
Proof. repeat split. Qed.

(* ---- C73 ---- *)
(* If no attempt to connect fails, a peer in Connect or Active has a connection
   or its retry timer runs. Missing: failed attempts. *)
Theorem C73_retry_partial third jit my_open cf xs :
  not_in_idle third jit my_open (peer_new cf) xs -> Forall no_failed_connect xs ->
  let p := fst (run third jit my_open (peer_new cf) xs) in
  p_alive p = true -> p_fsm p = Connect \/ p_fsm p = Active -> p_conn p <> None \/ p_retry p = true.
Proof.
  intros Hx Hn p. apply (busy_run third jit my_open xs (peer_new cf) Hx Hn (new_inv cf)).
  intros _ [H|H]; discriminate.
Qed.
Print Assumptions C73_retry_partial.
(* After one failed attempt nothing but a command moves the peer again. *)
Definition ex_failed : list pinput := [PCommand ManualStart; PAdmin 0 true; PConnect 1 false true].
Theorem C73_failed_attempt_refuted third jit my_open cf xs :
  let p := fst (run third jit my_open (peer_new (ex_pconf cf)) ex_failed) in
  p_up p = true /\ p_fsm p = Connect /\ p_conn p = None /\
  (Forall (fun x => match x with PCommand _ => False | _ => True end) xs -> run third jit my_open p xs = (p, [])).
Proof.
  set (q := mkPeer (ex_pconf cf) true Connect None None false 0 false [] false true).
  assert (E : fst (run third jit my_open (peer_new (ex_pconf cf)) ex_failed) = q) by reflexivity.
  cbv zeta. rewrite E. clear E. split; [reflexivity|]. split; [reflexivity|]. split; [reflexivity|].
  induction xs as [|x xs IH]; intros H; [reflexivity|]. inversion H as [|? ? Hx Hxs]; subst.
  assert (K : step third jit my_open q x = (q, [])) by (destruct x; try contradiction; reflexivity).
  cbn [run]. rewrite K, (IH Hxs). reflexivity.
Qed.
Print Assumptions C73_failed_attempt_refuted.
Example C73_nonvacuous :
  Forall no_failed_connect (firstn 2 ex_session) /\ not_in_idle ex_third ex_jit ex_open (peer_new (ex_pconf ex_conf)) (firstn 2 ex_session) /\
  p_fsm (fst (run ex_third ex_jit ex_open (peer_new (ex_pconf ex_conf)) (firstn 2 ex_session))) = Connect.
Proof. repeat split; try (repeat constructor). Qed.

(* ---- C74 ---- *)
(* With one command waiting it is the one that takes effect. Missing: several. *)
Theorem C74_single_command_partial third jit my_open p now w :
  p_alive p = true -> p_waiting p = [] ->
  forall a, let p1 := fst (step third jit my_open p (PCommand a)) in
  step third jit my_open p1 (PAdmin now w) = run_admin third jit my_open now w a (hide false p).
Proof.
  intros Ha Hw a p1. subst p1. unfold step. rewrite Ha. cbn. rewrite Ha, Hw. cbn. f_equal.
  unfold hide, queue. cbn. rewrite Hw, Ha. reflexivity.
Qed.
Print Assumptions C74_single_command_partial.
(* Start followed by stop leaves the peer started. *)
Theorem C74_last_first_refuted third jit my_open :
  let p := fst (run third jit my_open (peer_new (ex_pconf ex_conf)) [PCommand ManualStart; PCommand ManualStop; PAdmin 0 true; PAdmin 1 true]) in
  p_waiting p = [] /\ p_up p = true /\ p_fsm p = Connect.
Proof. repeat split. Qed.
Print Assumptions C74_last_first_refuted.

(* ---- C75 ---- *)
Theorem C75_stopped_is_idle third jit my_open cf xs :
  let p := fst (run third jit my_open (peer_new cf) xs) in
  p_up p = false -> p_fsm p = Idle /\ p_conn p = None /\ p_tracked p = None /\ p_retry p = false.
Proof. apply down_run. intros _. cbn. auto. Qed.
Print Assumptions C75_stopped_is_idle.
Theorem C75_stop_stops third jit my_open now w a p :
  a = ManualStop \/ a = AutomaticStop ->
  let '(p', o) := run_admin third jit my_open now w a p in
  p_up p' = false /\ p_fsm p' = Idle /\ p_conn p' = None /\ p_tracked p' = None /\
  (w = true -> p_conn p <> None -> In (PSent OnMain (MNotification (mkNotif 6 2 []))) o).
Proof.
  intros [-> | ->]; cbn; repeat split; intros -> Hc; unfold cease_all; destruct (p_conn p); try contradiction; left; reflexivity.
Qed.
Print Assumptions C75_stop_stops.
Example C75_nonvacuous :
  let xs := ex_session ++ [PCommand ManualStop; PAdmin 9 true; PCommand Incoming; PAdmin 10 true] in
  let r := run ex_third ex_jit ex_open (peer_new (ex_pconf ex_conf)) xs in
  p_up (fst r) = false /\ last (snd r) PError = PSent OnNew (MNotification (mkNotif 6 5 [])).
Proof. split; reflexivity. Qed.

(* ---- C76 ---- *)
(* A peer with a single connection goes on whatever it receives. Missing: a
   second connection. *)
Theorem C76_goes_on_partial third jit my_open cf xs x :
  not_in_idle third jit my_open (peer_new cf) xs -> can_write x ->
  let p := fst (run third jit my_open (peer_new cf) xs) in
  p_alive p = true -> p_tracked p = None -> p_alive (fst (step third jit my_open p x)) = true.
Proof. intros Hx Hw p Ha Ht. apply alive_step; auto. apply run_inv; [exact Hx|apply new_inv]. Qed.
Print Assumptions C76_goes_on_partial.
(* A session in OpenConfirm, a second connection whose OPEN has another AS
   number: the peer ends. *)
Definition ex_bad_second : list pinput :=
  firstn 4 ex_session ++ [PCommand Incoming; PAdmin 3 true; PTracked 4 (Some (IMsg (MOpen (mkOpen 65009 90 peer_id [])) [])) true].
Theorem C76_second_connection_refuted :
  Forall can_write ex_bad_second /\
  not_in_idle ex_third ex_jit ex_open (peer_new (ex_pconf ex_conf)) ex_bad_second /\
  (let p := fst (run ex_third ex_jit ex_open (peer_new (ex_pconf ex_conf)) (firstn 6 ex_bad_second)) in p_alive p = true /\ p_fsm p = FOpenConfirm) /\
  p_alive (fst (run ex_third ex_jit ex_open (peer_new (ex_pconf ex_conf)) ex_bad_second)) = false.
Proof. split; [repeat constructor|]. split; [cbn; repeat split; discriminate|]. split; [split; reflexivity|reflexivity]. Qed.
Print Assumptions C76_second_connection_refuted.
Example C76_nonvacuous :
  let p := fst (run ex_third ex_jit ex_open (peer_new (ex_pconf ex_conf)) ex_session) in p_alive p = true /\ p_tracked p = None /\ p_conn p <> None.
Proof. repeat split. discriminate. Qed.

(* ---- C77 ---- *)
(* With a single connection and the peer in Established the message goes to that
   connection, which is in Established. Missing: the other states, and a second
   connection. *)
Theorem C77_established_partial third jit my_open cf xs now m wt :
  not_in_idle third jit my_open (peer_new cf) xs ->
  let p := fst (run third jit my_open (peer_new cf) xs) in
  p_alive p = true -> p_fsm p = FEstablished -> p_tracked p = None ->
  (exists c, p_conn p = Some c /\ c_state c = Established) /\
  snd (step third jit my_open p (PSend now m wt true)) = [PSent OnMain m].
Proof.
  intros Hx p Ha Hf Ht. destruct (run_inv third jit my_open xs _ Hx (new_inv cf) Ha) as (Hg & _). fold p in Hg.
  unfold agree in Hg. rewrite Hf in Hg. destruct (p_conn p) as [c|] eqn:Hc; [|destruct Hg as [H|[H|H]]; discriminate H].
  split.
  - exists c. split; [reflexivity|]. destruct (c_state c); try discriminate Hg; [destruct Hg as [H|H]; discriminate H|reflexivity|destruct Hg].
  - unfold step. rewrite Ha. unfold send_message. cbn [negb hide p_tracked p_conn]. rewrite Hc, Ht. reflexivity.
Qed.
Print Assumptions C77_established_partial.
(* An UPDATE is also written before the OPEN of the peer has arrived. *)
Theorem C77_not_established_refuted :
  let p := fst (run ex_third ex_jit ex_open (peer_new (ex_pconf ex_conf)) (firstn 3 ex_session)) in
  p_fsm p = FOpenSent /\ In (PSent OnMain (MUpdate ex_update)) (snd (step ex_third ex_jit ex_open p (PSend 2 (MUpdate ex_update) true true))).
Proof. split; [reflexivity|left; reflexivity]. Qed.
Print Assumptions C77_not_established_refuted.
Example C77_nonvacuous :
  not_in_idle ex_third ex_jit ex_open (peer_new (ex_pconf ex_conf)) ex_session /\
  (let p := fst (run ex_third ex_jit ex_open (peer_new (ex_pconf ex_conf)) ex_session) in
   p_alive p = true /\ p_fsm p = FEstablished /\ p_tracked p = None).
Proof. vm_compute. repeat split. all: discriminate. Qed.

(* ---- C78 ---- *)
(* The second connection has received its OPEN; the OPEN on the main connection
   then resolves the collision in its favour, but is not handled: the KEEPALIVE
   that follows ends the session with a state machine error. *)
Definition ex_high : pconf := mkPf ex_conf false false (Some 65001) peer_id.
Definition ex_resolved : list pinput :=
  [PCommand ManualStart; PAdmin 0 true; PConnect 1 true true; PCommand Incoming; PAdmin 2 true;
   PTracked 3 (Some (IMsg (MOpen ex_a_open) [])) true; PMain 4 (Some (IMsg (MOpen ex_a_open) [])) true].
Theorem C78_open_lost_refuted :
  let p := fst (run ex_third ex_jit ex_b_open (peer_new ex_high) ex_resolved) in
  (exists c, p_conn p = Some c /\ c_state c = OpenSent /\ c_peer_id c = Some my_id) /\ p_tracked p = None /\
  snd (step ex_third ex_jit ex_b_open p (PMain 5 (Some (IMsg MKeepAlive [])) true)) =
    [PSent OnMain (MNotification (mkNotif 5 1 [])); PEvent Idle (BConn EvKeepalive)].
Proof. vm_compute. split; [eexists; repeat split|]. split; reflexivity. Qed.
Print Assumptions C78_open_lost_refuted.
(* When the second connection loses on its own OPEN, the main connection and the
   state of the peer stay as they are. Missing: the event of the main connection
   that resolves a collision, which is lost. *)
Theorem C78_loser_dropped_partial third jit my_open p c t n errs now w :
  p_alive p = true -> p_conn p = Some c -> p_tracked p = Some t -> p_hidden p = false ->
  c_peer_id c = Some (o_id n) -> o_id n < pf_my_id (p_conf p) -> p_fsm p <> Connect -> c_state t <> OpenConfirm ->
  due now (c_ka t) = false -> due now (c_delay t) = false -> due now (c_hold t) = false ->
  let p' := fst (step third jit my_open p (PTracked now (Some (IMsg (MOpen n) errs)) w)) in
  p_conn p' = Some c /\ p_tracked p' = None /\ p_fsm p' = p_fsm p /\ p_alive p' = true.
Proof.
  intros Ha Hc Ht Hh Hm Hlt Hf Hs D1 D2 D3. unfold step. rewrite Ha. cbn [negb].
  unfold tracked_ready, seen. rewrite Hh, Ht. unfold poll. rewrite D1, D2, D3. cbn [input_event].
  set (e := open_event n (c_peer_asn t) (match c_delay t with Some _ => true | None => false end)).
  destruct (handle_event third jit now my_open w e (with_peer_id (o_id n) t)) as [[t2 ms] ok] eqn:E.
  assert (Hp : c_peer_id t2 = Some (o_id n)).
  { destruct (handle_peer_id _ _ _ _ _ _ _ _ _ _ E) as [H|(o & [H|H] & K)]; [exact H| |];
      unfold e, open_event in H; destruct (c_peer_asn t) as [a|]; try destruct (a =? my_asn4 n); destruct (c_delay t); inversion H; subst; exact K. }
  assert (K : check_collision (pf_my_id (p_conf p)) (p_conn p) (Some t2) = Some DropTracked).
  { rewrite Hc. cbn. rewrite Hm, Hp, N.eqb_refl. cbn. destruct (N.ltb_spec (pf_my_id (p_conf p)) (o_id n)); [lia|reflexivity]. }
  rewrite K. destruct (p_fsm p) eqn:Ef; try (exfalso; apply Hf; reflexivity);
    destruct (c_state t) eqn:Es; try (exfalso; apply Hs; reflexivity); cbn; rewrite ?Ef, ?Hc, ?Ha; auto.
Qed.
Print Assumptions C78_loser_dropped_partial.
Example C78_nonvacuous :
  let p := fst (run ex_third ex_jit ex_b_open (peer_new ex_high)
             [PCommand ManualStart; PAdmin 0 true; PConnect 1 true true; PCommand Incoming; PAdmin 2 true;
              PMain 3 (Some (IMsg (MOpen ex_a_open) [])) true]) in
  exists c t, p_alive p = true /\ p_conn p = Some c /\ p_tracked p = Some t /\ p_hidden p = false /\
    c_peer_id c = Some (o_id ex_a_open) /\ o_id ex_a_open < pf_my_id (p_conf p) /\ p_fsm p = FOpenConfirm /\ c_state t = OpenSent /\
    due 4 (c_ka t) = false /\ due 4 (c_delay t) = false /\ due 4 (c_hold t) = false.
Proof. vm_compute. do 2 eexists. repeat split. Qed.

(* ---- C79 ---- *)
Theorem C79_configured_as my_asn d id hold caps reject peer_open :
  my_asn < 4294967296 -> (forall a, In (CFourOctetAs a) caps -> a = my_asn) ->
  speaks_for (policy_open my_asn d id hold caps reject (echoed peer_open)) my_asn.
Proof.
  intros Hb Hc. apply speaks_for_spec. apply policy_open_asn; try assumption.
  intros a Ha. apply filter_In in Ha. destruct Ha as [_ Ha]. discriminate.
Qed.
Print Assumptions C79_configured_as.

Example C79_nonvacuous :
  let o := policy_open 70000 true my_id 180 [] [] (echoed (mkOpen 65002 90 peer_id [[CFourOctetAs 80000; CRouteRefresh]])) in
  speaks_for o 70000 /\ ~ speaks_for o 80000 /\ o_as o = 23456 /\ In CRouteRefresh (open_caps o).
Proof.
  cbv zeta. split; [apply speaks_for_spec; reflexivity|]. split; [intros H; apply speaks_for_spec in H; discriminate H|].
  split; [reflexivity|]. right. left. reflexivity.
Qed.
