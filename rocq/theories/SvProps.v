(* The supervisors of the flow, UDP-Notif and BMP services. *)
From Coq Require Import List Bool Arith Lia Permutation.
From Verif Require Import SvModel SvSpec SvProofs SvProofs2 SvProofs3 SvProofs4.
Import ListNotations.

Section Props.
Variable v : service.
Variable order : list nat.
Variable buffer : nat.
Notation step := (step v order buffer).
Notation reachable := (reachable v order buffer).
Notation runs := (runs v order buffer).
Notation quiet := (quiet v order buffer).
Notation result_of := (result_of order).

Lemma result_ok s c k l : nth_error (s_calls s) c = Some k -> result_of s c = Some (Ok l) ->
  has c (s_panicked s) = false /\ has c (s_refused s) = false /\ pending order s c = false /\ l = replies_to s c.
Proof.
  unfold SvModel.result_of. intros Hk H. destruct (has c (s_panicked s)); [discriminate|]. destruct (has c (s_refused s)); [discriminate|].
  destruct (pending order s c); [discriminate|]. rewrite Hk in H. repeat split; auto.
  destruct k; try (inversion H; reflexivity). destruct (replies_to s c); [discriminate|]. inversion H; reflexivity.
Qed.
Lemma accepted s c k l : nth_error (s_calls s) c = Some k -> is_broadcast k = true -> result_of s c = Some (Ok l) -> In c (accepted_broadcasts s).
Proof.
  intros Hk Hb H. destruct (result_ok s c k l Hk H) as (H1 & H2 & _). unfold accepted_broadcasts. apply filter_In. split.
  - apply in_seq. split; [lia|]. apply nth_error_Some. congruence.
  - rewrite Hk, Hb, H1, H2. reflexivity.
Qed.

(* ---- C188: the answers to a call ---- *)
(* the answers are of the call's kind, at most one from each listener *)
Theorem C188_one_answer_each s c k l : NoDup order -> reachable s -> nth_error (s_calls s) c = Some k -> is_broadcast k = true ->
  waits s c -> result_of s c = Some (Ok l) ->
  Forall (right_kind k) l /\ NoDup (answerers l) /\ incl (answerers l) order.
Proof.
  intros distinct Hr Hk Hb Hw H. destruct (result_ok s c k l Hk H) as (_ & _ & _ & ->).
  split; [eapply replies_kind; eauto|]. apply (answerers_nodup v order buffer distinct s c Hr Hw).
Qed.
(* every listener that runs has answered, if the supervisor runs *)
Theorem C188_running_listeners_partial s c k l a : NoDup order -> reachable s -> nth_error (s_calls s) c = Some k -> is_broadcast k = true ->
  waits s c -> result_of s c = Some (Ok l) -> supervisor_runs s -> In a order -> l_end (s_listeners s a) = None -> In a (answerers l).
Proof.
  intros distinct Hr Hk Hb Hw H Hs Ha Hl. pose proof (accepted s c k l Hk Hb H) as Hc. destruct (result_ok s c k l Hk H) as (_ & _ & Hp & ->).
  apply (count_occ_In Nat.eq_dec). rewrite (count_answers s c a Hw (answers v order buffer s Hr)). apply count_occ_In. eapply complete; eauto.
Qed.
Theorem C188_all_listeners_partial s c k l : NoDup order -> reachable s -> nth_error (s_calls s) c = Some k -> is_broadcast k = true ->
  waits s c -> result_of s c = Some (Ok l) -> supervisor_runs s -> every_listener_runs order s -> Permutation (answerers l) order.
Proof.
  intros distinct Hr Hk Hb Hw H Hs Hl. pose proof (accepted s c k l Hk Hb H) as Hc. destruct (result_ok s c k l Hk H) as (_ & _ & Hp & ->).
  eapply complete_perm; eauto.
Qed.

(* ---- C189: every call returns ---- *)
(* when no task can go on, every call has returned *)
Theorem C189_all_return s c : reachable s -> quiet s -> c < length (s_calls s) -> result_of s c <> None.
Proof.
  intros Hr Q Hc. destruct (quiet_state v order buffer s Hr Q) as (E1 & E2 & E3).
  assert (Hp : pending order s c = false).
  { apply pending_false; [rewrite E1; auto| |intros a _; rewrite E2; auto]. destruct E3 as [[-> _]|[-> _]]; discriminate. }
  unfold SvModel.result_of. destruct (has c (s_panicked s)); [discriminate|]. destruct (has c (s_refused s)); [discriminate|]. rewrite Hp.
  apply nth_error_Some in Hc. destruct (nth_error (s_calls s) c) as [k|]; [|contradiction]. destruct k; try discriminate. destruct (replies_to s c); discriminate.
Qed.
(* and the tasks cannot go on for ever *)
Theorem C189_bounded_work s : NoDup order -> reachable s -> exists n, forall es s', Forall internal es -> runs s es s' -> length es <= n.
Proof. intros distinct Hr. exists (work order s). intros es s' Hi H. pose proof (work_runs v order buffer s es s' distinct Hr Hi H). lia. Qed.

(* ---- C190: each listener handles the accepted calls in order ---- *)
Theorem C190_in_order s a : NoDup order -> reachable s -> In a order ->
  exists rest, accepted_broadcasts s = l_done (s_listeners s a) ++ rest.
Proof. intros distinct Hr Ha. destruct (prefix v order buffer distinct s Hr a Ha) as [x [E _]]. eauto. Qed.
Theorem C190_nothing_skipped s a : NoDup order -> reachable s -> In a order -> supervisor_runs s -> l_end (s_listeners s a) = None ->
  quiet s -> l_done (s_listeners s a) = accepted_broadcasts s.
Proof.
  intros distinct Hr Ha Hs Hl Q. destruct (quiet_state v order buffer s Hr Q) as (E1 & E2 & E3).
  destruct (prefix v order buffer distinct s Hr a Ha) as [x [E F]]. rewrite F in E; [|unfold alive; rewrite Hl; reflexivity|exact Hs].
  rewrite E, E1, E2. destruct E3 as [[-> _]|[E3 _]]; [|contradiction]. cbn. rewrite app_nil_r. reflexivity.
Qed.

(* ---- C191: unsubscribing ---- *)
(* a subscription that was reported and is named by a completed call is gone *)
Theorem C191_removed s0 s1 es s2 a id subs : NoDup order -> reachable s0 -> 0 < buffer -> reported s0 a id -> In (a, id) subs ->
  step s0 (Call (CUnsubscribe subs)) = Some s1 -> runs s1 es s2 -> result_of s2 (length (s_calls s0)) <> None ->
  supervisor_runs s2 -> l_end (s_listeners s2 a) = None -> ~ registered s2 a id.
Proof.
  intros distinct Hr Hb Hrep Hin Hs H Hres Hrun Hl.
  assert (Hr1 : reachable s1) by (eapply reachable_step; eauto). assert (Hr2 : reachable s2) by (eapply reachable_runs; eauto).
  assert (Ha : In a order).
  { destruct (in_dec Nat.eq_dec a order) as [|Hc]; [assumption|]. pose proof (K_out order s2 (kinds v order buffer s2 Hr2) a Hc) as E. unfold alive in E. rewrite Hl in E. discriminate. }
  set (c := length (s_calls s0)) in *.
  assert (N0 : id < l_next (s_listeners s0 a)). { apply (proj1 (ids_hold v order buffer s0 Hr a)). apply reported_sub; exact Hrep. }
  pose proof (K_bad order s0 (kinds v order buffer s0 Hr)) as Bad.
  assert (I1 : Removing c a id s1 /\ c < length (s_calls s1) /\ ~ In c (s_refused s1) /\ ~ In c (s_panicked s1) \/ s_control s1 = Ended).
  { cbn in Hs. unfold do_call in Hs. destruct (s_dropped s0); [discriminate|]. assert (Eb : buffer =? 0 = false) by (apply Nat.eqb_neq; lia). rewrite Eb in Hs.
    rewrite !Forall_app in Bad. destruct Bad as (B1 & B2 & _). rewrite Forall_forall in B1, B2.
    assert (G : forall k, k <> Ended -> s_control s0 = k -> (if length (s_queue s0) <? sup_capacity
        then Some (State (s_queue s0 ++ [(length (s_calls s0), CUnsubscribe subs)]) k (s_listeners s0) (s_replies s0) (s_calls s0 ++ [CUnsubscribe subs]) (s_refused s0) (s_panicked s0) (s_gone s0) false) else None) = Some s1 ->
        Removing c a id s1 /\ c < length (s_calls s1) /\ ~ In c (s_refused s1) /\ ~ In c (s_panicked s1) \/ s_control s1 = Ended).
    { intros k Hk Ek Hq. destruct (length (s_queue s0) <? sup_capacity); [|discriminate]. inversion Hq; subst s1. left. split; [|cbn; repeat split].
      - split; [exact N0|]. split; [left; exists subs; cbn; split; [apply in_or_app; right; left; reflexivity|exact Hin]|].
        cbn. intros d ids0 more b Eq. (* [c] is not in hand, another Unsubscribe may be *)
        rewrite <- Ek in Eq. exact (proj2 (replied_gone v order buffer s0 distinct Hr a id d ids0 more b Eq)).
      - rewrite app_length. cbn. unfold c. lia.
      - intros Hi. apply B1 in Hi. unfold c in Hi. lia.
      - intros Hi. apply B2 in Hi. unfold c in Hi. lia. }
    destruct (s_control s0) eqn:Ek; try (eapply G; [|reflexivity|exact Hs]; discriminate). inversion Hs; subst s1. right. reflexivity. }
  destruct I1 as [(R1 & L1 & F1 & P1)|Ee].
  2:{ exfalso. apply Hrun. revert Ee. apply (inv_runs v order buffer (fun s => s_control s = Ended)) with (2 := H). intros s e s' E T. destruct T; cbn in *; try discriminate; auto. destruct k as [| |? ? ? [| |]| |]; subst; congruence. }
  assert (I2 : Removing c a id s2 /\ c < length (s_calls s2) /\ ~ In c (s_refused s2) /\ ~ In c (s_panicked s2)).
  { apply (with_base_runs v order buffer (fun s => Removing c a id s /\ c < length (s_calls s) /\ ~ In c (s_refused s) /\ ~ In c (s_panicked s)) distinct) with (3 := H); [|exact Hr1|auto].
    intros s e s' B (A1 & A2 & A3 & A4) T. split; [eapply removing_tr; eauto|].
    destruct T; cbn in *; rewrite ?app_length; cbn; auto; (split; [lia|]); split; auto; intros [E|E]; auto; lia. }
  destruct I2 as ((_ & R2 & _) & L2 & F2 & P2). unfold SvModel.result_of in Hres. apply has_nIn in F2, P2. rewrite F2, P2 in Hres.
  destruct (pending order s2 c) eqn:Ep; [contradiction|]. destruct (not_pending v order buffer s2 c Ep Hr2) as (Q1 & Q2 & _).
  destruct R2 as [(sb & Hq & _)|[(todo & b & w & ids0 & Ek & _)|[Hn|[Hd|He]]]].
  - exfalso. apply Q1. apply in_map_iff. exists (c, CUnsubscribe sb). auto.
  - exfalso. apply Q2. rewrite Ek. reflexivity.
  - exact Hn.
  - unfold alive in Hd. rewrite Hl in Hd. discriminate.
  - contradiction.
Qed.
(* a reported subscription that no call names is still there *)
Theorem C191_kept s a id : NoDup order -> reachable s -> reported s a id -> ~ named_by_a_call s a id -> registered s a id.
Proof. intros distinct Hr H Hn. destruct (kept v order buffer s distinct Hr a id H); [assumption|contradiction]. Qed.
Lemma report_done s c subs l : NoDup order -> reachable s -> nth_error (s_calls s) c = Some (CUnsubscribe subs) -> waits s c ->
  result_of s c = Some (Ok l) -> supervisor_runs s -> Forall2 (entry (s_listeners s) subs) order l.
Proof.
  intros distinct Hr Hk Hw H Hs. destruct (result_ok s c _ l Hk H) as (P1 & P2 & Hp & ->). apply has_nIn in P1, P2.
  destruct (not_pending v order buffer s c Hp Hr) as (Q1 & Q2 & _).
  destruct (report v order buffer s distinct Hr c subs Hk Hw P2 P1 Hs) as [[Q _]|[Q|(_ & _ & Q)]]; [contradiction| |exact Q].
  destruct Q as (todo & b & w & pre & E & _). exfalso. apply Q2. rewrite E. reflexivity.
Qed.
(* the report has one entry per listener; while all of them run it tells which were named *)
Theorem C191_report_length s c subs l : NoDup order -> reachable s -> nth_error (s_calls s) c = Some (CUnsubscribe subs) -> waits s c ->
  result_of s c = Some (Ok l) -> supervisor_runs s -> length l = length order.
Proof. intros H1 H2 H3 H4 H5 H6. pose proof (report_done s c subs l H1 H2 H3 H4 H5 H6) as F. clear - F. induction F; cbn; congruence. Qed.
Theorem C191_report s c subs l : NoDup order -> reachable s -> nth_error (s_calls s) c = Some (CUnsubscribe subs) -> waits s c ->
  result_of s c = Some (Ok l) -> supervisor_runs s -> every_listener_runs order s -> expected_unsubscribe order subs l.
Proof.
  intros distinct Hr Hk Hw H Hs Hl. pose proof (report_done s c subs l distinct Hr Hk Hw H Hs) as F. unfold expected_unsubscribe.
  unfold every_listener_runs in Hl. clear - F Hl. revert Hl. induction F as [|a r os rs E F IH]; intros Hl; [constructor|]. constructor.
  - destruct E as [E|[_ E]].
    2:{ exfalso. unfold alive in E. rewrite (Hl a) in E by (left; reflexivity). discriminate. }
    subst r. unfold expected. destruct (named subs a) as [|i is] eqn:En.
    + right. split; [|reflexivity]. intros Hi. apply in_map_iff in Hi. destruct Hi as [[x y] [<- Hi]]. cbn in En.
      apply named_in in Hi. rewrite En in Hi. destruct Hi.
    + left. split; [|reflexivity]. assert (Hi : In i (named subs a)) by (rewrite En; left; reflexivity). apply named_in in Hi.
      apply in_map_iff. exists (a, i). auto.
  - apply IH. intros b Hb. apply Hl. right. exact Hb.
Qed.

(* ---- C192: shutting down ---- *)
Theorem C192_shutdown_stops_all s c l : NoDup order -> reachable s -> nth_error (s_calls s) c = Some CShutdown -> result_of s c = Some (Ok l) ->
  ~ supervisor_runs s /\ forall a, In a order -> l_end (s_listeners s a) <> None.
Proof.
  intros distinct Hr Hk H. assert (Hi : In (c, ShutDone) (s_replies s)).
  { assert (Hn : replies_to s c <> []).
    { unfold SvModel.result_of in H. destruct (has c (s_panicked s)); [discriminate|]. destruct (has c (s_refused s)); [discriminate|].
      destruct (pending order s c); [discriminate|]. rewrite Hk in H. intros E. rewrite E in H. discriminate. }
    destruct (replies_to s c) as [|r rs] eqn:E; [contradiction|]. assert (Hir : In r (replies_to s c)) by (rewrite E; left; reflexivity).
    unfold replies_to in Hir. apply in_map_iff in Hir. destruct Hir as [[d r'] [E1 Hir]]. cbn in E1. subst r'. apply filter_In in Hir.
    destruct Hir as [Hir Ed]. apply Nat.eqb_eq in Ed. cbn in Ed. subst d.
    pose proof (K_replies order s (kinds v order buffer s Hr)) as Kr. rewrite Forall_forall in Kr. specialize (Kr _ Hir).
    unfold reply_ok in Kr. cbn in Kr. destruct Kr as (k & Ek & Kr). rewrite Hk in Ek. injection Ek as <-. destruct r; cbn in Kr; try contradiction. exact Hir. }
  destruct (proj1 (shut v order buffer s distinct Hr) c Hi) as [E1 E2]. split; [intros Hs; exact (Hs E1)|].
  intros a Ha El. specialize (E2 a Ha). unfold alive in E2. rewrite El in E2. discriminate.
Qed.
(* a listener stopped by a shutdown has first handled every call accepted before it *)
Theorem C192_earlier_calls_first s a c d : NoDup order -> reachable s -> l_end (s_listeners s a) = Some (ToldBy c) ->
  In d (accepted_broadcasts s) -> d < c -> In d (l_done (s_listeners s a)).
Proof. intros distinct Hr H. exact (proj2 (proj2 (proj2 (shut v order buffer s distinct Hr)) a c H) d). Qed.
(* once every handle is dropped all tasks end *)
Theorem C192_dropped_stops_all s : reachable s -> s_dropped s = true -> quiet s ->
  ~ supervisor_runs s /\ forall a, l_end (s_listeners s a) <> None.
Proof.
  intros Hr Hd Q. destruct (quiet_state v order buffer s Hr Q) as (_ & _ & [[_ E]|[E1 E2]]); [congruence|].
  split; [intros Hs; exact (Hs E1)|]. intros a El. specialize (E2 a). unfold alive in E2. rewrite El in E2. discriminate.
Qed.
(* nothing else ends them: the supervisor runs until a shutdown is called, the handles
   are dropped, or no listener is left; a listener runs on while the supervisor does,
   unless it is told to stop or fails *)
Theorem C192_runs_until_told s : reachable s -> s_dropped s = false -> ~ In CShutdown (s_calls s) ->
  (exists a, In a order /\ l_end (s_listeners s a) = None) -> supervisor_runs s.
Proof.
  intros Hr Hd Hn [a [Ha Hl]] E. destruct (To_end _ _ (told v order buffer s Hr) E) as [H|[H|H]]; [congruence|contradiction|exact (H a Ha Hl)].
Qed.
Theorem C192_listener_runs_until_told s a : reachable s -> In a order -> supervisor_runs s ->
  l_end (s_listeners s a) = None \/ l_end (s_listeners s a) = Some Crashed \/ exists c, l_end (s_listeners s a) = Some (ToldBy c).
Proof.
  intros Hr Ha Hs. pose proof (To_closed _ _ (told v order buffer s Hr) a Ha) as C.
  destruct (l_end (s_listeners s a)) as [[| |c]|]; eauto. exfalso. exact (Hs (C eq_refl)).
Qed.
(* after the end every call is refused *)
Theorem C192_refused_after_end s k s1 es s2 : reachable s -> 0 < buffer -> ~ supervisor_runs s -> step s (Call k) = Some s1 -> runs s1 es s2 ->
  result_of s2 (length (s_calls s)) = Some SendError.
Proof.
  intros Hr Hb Hs H R.
  assert (E : s_control s = Ended) by (destruct (s_control s) eqn:E; try reflexivity; exfalso; apply Hs; unfold supervisor_runs; rewrite E; discriminate).
  set (c := length (s_calls s)).
  assert (Bad : ~ In c (s_panicked s)).
  { pose proof (K_bad order s (kinds v order buffer s Hr)) as B. rewrite !Forall_app in B. destruct B as (_ & B & _). rewrite Forall_forall in B. intros Hi. apply B in Hi. unfold c in Hi. lia. }
  assert (I1 : In c (s_refused s1) /\ ~ In c (s_panicked s1) /\ c < length (s_calls s1)).
  { cbn in H. unfold do_call in H. destruct (s_dropped s); [discriminate|]. assert (Eb : buffer =? 0 = false) by (apply Nat.eqb_neq; lia).
    rewrite Eb in H. rewrite E in H. destruct k; inversion H; cbn; rewrite app_length; cbn; repeat split; auto; unfold c; lia. }
  assert (I2 : In c (s_refused s2) /\ ~ In c (s_panicked s2) /\ c < length (s_calls s2)).
  { apply (inv_runs v order buffer (fun s => In c (s_refused s) /\ ~ In c (s_panicked s) /\ c < length (s_calls s))) with (2 := R); [|exact I1].
    intros x e x' (A1 & A2 & A3) T. destruct T; cbn in *; rewrite ?app_length; cbn; (split; [auto|]); (split; [|lia]); auto; intros [X|X]; auto; lia. }
  destruct I2 as (A1 & A2 & _). unfold SvModel.result_of. apply has_nIn in A2. apply has_In in A1. rewrite A2, A1. reflexivity.
Qed.

(* ---- C193: subscriptions ---- *)
Lemma nodup_flat {A} (f : A -> list nat) l : NoDup (flat_map f l) -> forall i j x y z, nth_error l i = Some x -> nth_error l j = Some y -> In z (f x) -> In z (f y) -> i = j.
Proof.
  induction l as [|h t IH]; intros H i j x y z Hi Hj Hx Hy; [destruct i; discriminate|]. cbn in H.
  assert (Ht : forall n w, nth_error t n = Some w -> In z (f w) -> In z (flat_map f t)) by (intros n w Hn Hw; apply in_flat_map; exists w; split; [eapply nth_error_In; eauto|exact Hw]).
  assert (D : In z (f h) -> In z (flat_map f t) -> False).
  { clear - H. induction (f h) as [|q qs IHq]; intros [] Hz; cbn in H; apply NoDup_cons_iff in H; destruct H as [H1 H2].
    - subst q. apply H1. apply in_or_app. right. exact Hz.
    - apply IHq; assumption. }
  assert (N : NoDup (flat_map f t)) by (clear - H; induction (f h) as [|q qs IHq]; [exact H|cbn in H; apply NoDup_cons_iff in H; apply IHq; apply H]).
  destruct i as [|i], j as [|j]; cbn in Hi, Hj.
  - reflexivity.
  - injection Hi as ->. exfalso. apply D; eauto.
  - injection Hj as ->. exfalso. apply D; eauto.
  - f_equal. eapply IH; eauto.
Qed.
(* no two answers give the same listener's id *)
Theorem C193_ids_unique s i j c d a id : reachable s -> nth_error (s_replies s) i = Some (c, Subscribed a id) ->
  nth_error (s_replies s) j = Some (d, Subscribed a id) -> i = j.
Proof.
  intros Hr Hi Hj. destruct (ids_hold v order buffer s Hr a) as (_ & _ & N).
  eapply (nodup_flat (sub_of a) _ N); eauto; unfold sub_of; cbn; rewrite Nat.eqb_refl; left; reflexivity.
Qed.
(* no subscription without a subscriber: for the flow and UDP-Notif services *)
Theorem C193_no_orphans_partial s a id : v <> Bmp -> reachable s -> registered s a id -> reported s a id.
Proof. intros Hv Hr. apply reported_registered with (1 := Hv) (2 := Hr). Qed.
End Props.
Print Assumptions C188_one_answer_each.
Print Assumptions C188_running_listeners_partial.
Print Assumptions C188_all_listeners_partial.
Print Assumptions C189_all_return.
Print Assumptions C189_bounded_work.
Print Assumptions C190_in_order.
Print Assumptions C190_nothing_skipped.
Print Assumptions C191_removed.
Print Assumptions C191_kept.
Print Assumptions C191_report_length.
Print Assumptions C191_report.
Print Assumptions C192_shutdown_stops_all.
Print Assumptions C192_earlier_calls_first.
Print Assumptions C192_dropped_stops_all.
Print Assumptions C192_runs_until_told.
Print Assumptions C192_listener_runs_until_told.
Print Assumptions C192_refused_after_end.
Print Assumptions C193_ids_unique.
Print Assumptions C193_no_orphans_partial.

(* ---- C194: starting ---- *)
Lemma start_ids_eq l n : start_ids l n = seq n (count_occ bool_dec l true).
Proof. revert n. induction l as [|[] l IH]; intros n; cbn; [reflexivity| |]; rewrite IH; reflexivity. Qed.
(* the listeners that started are numbered 0, 1, 2, ... *)
Theorem C194_numbered v bindings ids s : start v bindings = Handle ids s ->
  ids = seq 0 (count_occ bool_dec (concat bindings) true) /\ NoDup ids /\ every_listener_runs ids s.
Proof.
  unfold start. rewrite start_ids_eq. intros H.
  assert (E : Handle (seq 0 (count_occ bool_dec (concat bindings) true)) (init (seq 0 (count_occ bool_dec (concat bindings) true))) = Handle ids s).
  { destruct (seq 0 _); destruct v; try discriminate; exact H. }
  injection E as <- <-. repeat split; [apply seq_NoDup|]. intros a Ha. cbn. apply has_In in Ha. rewrite Ha. reflexivity.
Qed.
Print Assumptions C194_numbered.
(* no handle without a listener: for the flow and BMP services *)
Theorem C194_some_listener_partial v bindings : v <> UdpNotif ->
  (start v bindings = NoListenerStarted <-> ~ In true (concat bindings)).
Proof.
  intros Hv. unfold start. rewrite start_ids_eq. rewrite (count_occ_not_In bool_dec).
  destruct (count_occ bool_dec (concat bindings) true); destruct v; cbn; split; try congruence; intros; try discriminate; reflexivity.
Qed.
Print Assumptions C194_some_listener_partial.

(* ---- what the supervisors do not give ---- *)
Definition reach_after v order buffer es : reachable v order buffer (after v order buffer (init order) es) := ex_intro _ es eq_refl.
(* a listener that ended is left out without a word *)
Theorem C188_ended_listener_refuted v : exists s c l, reachable v [0; 1] 5 s /\ nth_error (s_calls s) c = Some CSubscribe /\ waits s c /\
  supervisor_runs s /\ result_of [0; 1] s c = Some (Ok l) /\ answerers l = [1].
Proof.
  exists (after v [0; 1] 5 (init [0; 1]) [Die 0; Call CSubscribe; Sup; Sup; Sup; Sup; Act 1]), 0, [Subscribed 1 0].
  split; [apply reach_after|]. destruct v; lazy; intuition discriminate.
Qed.
Print Assumptions C188_ended_listener_refuted.
(* a call behind a shutdown succeeds with no answer *)
Theorem C188_behind_shutdown_refuted v : exists s, reachable v [0; 1] 5 s /\ nth_error (s_calls s) 1 = Some CSubscribe /\ waits s 1 /\
  result_of [0; 1] s 1 = Some (Ok []) /\ l_done (s_listeners s 0) = [] /\ l_done (s_listeners s 1) = [].
Proof.
  exists (after v [0; 1] 5 (init [0; 1]) [Call CShutdown; Call CSubscribe; Sup; Sup; Act 0; Sup; Sup; Act 1; Sup; Sup]).
  split; [apply reach_after|]. destruct v; lazy; tauto.
Qed.
Print Assumptions C188_behind_shutdown_refuted.
(* a buffer size of zero is accepted and makes every call but the shutdown panic *)
Theorem C189_zero_buffer_refuted v order k : k <> CShutdown ->
  exists s, reachable v order 0 s /\ s_calls s = [k] /\ result_of order s 0 = Some Panic.
Proof. intros Hk. exists (after v order 0 (init order) [Call k]). split; [apply reach_after|]. destruct k; try contradiction; split; reflexivity. Qed.
Print Assumptions C189_zero_buffer_refuted.
(* an id that was never given out is reported as removed *)
Theorem C191_unknown_id_refuted v : exists s, reachable v [0] 5 s /\ supervisor_runs s /\ (forall id, ~ reported s 0 id) /\
  nth_error (s_calls s) 0 = Some (CUnsubscribe [(0, 7)]) /\ result_of [0] s 0 = Some (Ok [Unsubscribed (Some 0)]).
Proof.
  exists (after v [0] 5 (init [0]) [Call (CUnsubscribe [(0, 7)]); Sup; Sup; Act 0; Sup; Sup; Sup]).
  split; [apply reach_after|]. unfold reported. destruct v; lazy; (split; [discriminate|]); (split; [|split; reflexivity]); intros id [c [H|[]]]; discriminate H.
Qed.
Print Assumptions C191_unknown_id_refuted.
(* a shutdown that stopped everything can still return an error *)
Theorem C192_receive_error_refuted v : exists s, reachable v [0] 5 s /\ s_calls s = [CShutdown] /\ waits s 0 /\
  l_end (s_listeners s 0) = Some (ToldBy 0) /\ result_of [0] s 0 = Some ReceiveError.
Proof.
  exists (after v [0] 5 (init [0]) [Call CShutdown; Sup; Sup; Act 0; AllGone]).
  split; [apply reach_after|]. destruct v; lazy; tauto.
Qed.
Print Assumptions C192_receive_error_refuted.
(* the BMP listener keeps the subscription of a caller that is gone; no later call can name it *)
Theorem C193_bmp_orphan_refuted : exists s, reachable Bmp [0] 5 s /\ registered s 0 0 /\ forall id, ~ reported s 0 id.
Proof.
  exists (after Bmp [0] 5 (init [0]) [Call CSubscribe; GiveUp 0; Sup; Sup; Act 0]).
  split; [apply reach_after|]. split; [left; reflexivity|]. intros id [c []].
Qed.
Print Assumptions C193_bmp_orphan_refuted.
(* the UDP-Notif service starts without any listener, and subscribing to it succeeds *)
Theorem C194_no_listener_refuted : exists s0 s, start UdpNotif [[false; false]; [false]] = Handle [] s0 /\
  s = after UdpNotif [] 5 s0 [Call CSubscribe; Sup; Sup] /\ supervisor_runs s /\ result_of [] s 0 = Some (Ok []).
Proof. eexists _, _. split; [reflexivity|]. split; [reflexivity|]. split; [discriminate|reflexivity]. Qed.
Print Assumptions C194_no_listener_refuted.

(* ---- the hypotheses are met ---- *)
Definition example_events : list event :=
  [Call CSubscribe; Call CQuery; Sup; Sup; Act 1; Sup; Sup; Sup; Act 0; Sup; Sup; Act 0; Sup; Act 1].
Definition example_state : state := after Flow [1; 0] 5 (init [1; 0]) example_events.
Example C188_nonvacuous : NoDup [1; 0] /\ reachable Flow [1; 0] 5 example_state /\ waits example_state 0 /\ supervisor_runs example_state /\
  every_listener_runs [1; 0] example_state /\ result_of [1; 0] example_state 0 = Some (Ok [Subscribed 1 0; Subscribed 0 0]) /\
  result_of [1; 0] example_state 1 = Some (Ok [Answered 0; Answered 1]).
Proof.
  split; [repeat constructor; cbn; intuition lia|]. split; [apply reach_after|]. unfold every_listener_runs. lazy. split; [tauto|]. split; [discriminate|].
  split; [|split; reflexivity]. intros a [<-|[<-|[]]]; reflexivity.
Qed.
Example C189_nonvacuous : quiet Flow [1; 0] 5 example_state /\ 1 < length (s_calls example_state).
Proof.
  split; [|lazy; lia]. intros [| | | |a| |] H; try contradiction; [lazy; reflexivity|].
  destruct a as [|[|a]]; lazy; reflexivity.
Qed.
Example C190_nonvacuous : accepted_broadcasts example_state = [0; 1] /\ l_done (s_listeners example_state 0) = [0; 1].
Proof. lazy. split; reflexivity. Qed.
Definition example_unsubscribe : list event := [Sup; Sup; Act 1; Sup; Sup; Sup; Sup].
Definition example_gone : state :=
  after Flow [1; 0] 5 (after_event Flow [1; 0] 5 example_state (Call (CUnsubscribe [(1, 0)]))) example_unsubscribe.
Example C191_nonvacuous : exists s1, reported example_state 1 0 /\ step Flow [1; 0] 5 example_state (Call (CUnsubscribe [(1, 0)])) = Some s1 /\
  runs Flow [1; 0] 5 s1 example_unsubscribe example_gone /\
  result_of [1; 0] example_gone 2 = Some (Ok [Unsubscribed (Some 1); Unsubscribed None]) /\ supervisor_runs example_gone /\
  registered example_state 1 0 /\ registered example_gone 0 0 /\ l_subs (s_listeners example_gone 1) = [].
Proof.
  eexists. split; [exists 0; lazy; tauto|]. split; [lazy; reflexivity|].
  split; [|lazy; intuition discriminate].
  match goal with |- runs _ _ _ _ _ ?g => let y := eval lazy in g in assert (E : g = y) by (lazy; reflexivity); rewrite E; clear E end.
  unfold example_unsubscribe. repeat (eapply runs_cons; [lazy; reflexivity|]). apply runs_nil.
Qed.
Definition example_stopped : state :=
  after Flow [1; 0] 5 example_state [Call CShutdown; Sup; Sup; Act 1; Sup; Sup; Act 0; Sup; Sup].
Example C192_nonvacuous : result_of [1; 0] example_stopped 2 = Some (Ok [ShutDone]) /\ l_end (s_listeners example_stopped 0) = Some (ToldBy 2) /\
  ~ supervisor_runs example_stopped /\ (exists s1, step Flow [1; 0] 5 example_stopped (Call CQuery) = Some s1).
Proof. lazy. repeat split; [tauto|eexists; reflexivity]. Qed.
Definition example_dropped : state := after Flow [1; 0] 5 example_state [DropHandles; Sup; Act 0; Act 1].
Example C192_dropped_nonvacuous : s_dropped example_dropped = true /\ quiet Flow [1; 0] 5 example_dropped.
Proof. split; [lazy; reflexivity|]. intros [| | | |a| |] H; try contradiction; [lazy; reflexivity|]. destruct a as [|[|a]]; lazy; reflexivity. Qed.
Example C193_nonvacuous : s_replies example_state = [(0, Subscribed 1 0); (0, Subscribed 0 0); (1, Answered 0); (1, Answered 1)].
Proof. lazy. reflexivity. Qed.
Example C194_nonvacuous : exists s, start Bmp [[true; false]; []; [true]] = Handle [0; 1] s /\ start Flow [[false]] = NoListenerStarted.
Proof. eexists. split; reflexivity. Qed.
