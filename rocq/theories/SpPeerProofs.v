From Verif Require Import Base BaseLemmas AfModel BgpCapModel BgpFrameModel BgpNlriModel BgpAttrModel BgpMsgModel SpModel SpSpec SpProofs.

Section Peer.
Context (third jit : N -> N) (my_open : open_msg).
Notation handle_event := (handle_event third jit).
Notation step := (step third jit my_open).
Notation run := (run third jit my_open).
Notation not_in_idle := (not_in_idle third jit my_open).

Definition below (t : option conn) : Prop := forall c, t = Some c -> c_state c <> Established.
Definition pinv (p : peer) : Prop :=
  p_alive p = true ->
  agree (p_fsm p) (p_conn p) /\ (p_retry p = true -> p_conn p = None) /\ below (p_tracked p).

(* the first event of a connection *)
Lemma first_event now w ty pa cf e c ms :
  e = EvAcked \/ e = EvConfirmed ->
  handle_event now my_open w e (conn_new pa ty cf) = (c, ms, true) -> c_state c = Connected \/ c_state c = OpenSent.
Proof.
  intros He E. pose proof (handle_into third jit my_open _ _ _ _ _ _ _ E) as H.
  destruct (c_state c) eqn:S; auto.
  - destruct H as [[H _]|(o & [(H & _)|(H & _)])]; [discriminate|destruct He; congruence..].
  - destruct H as [H|[H _]]; discriminate.
  - destruct He as [-> | ->]; unfold SpModel.handle_event, on_connected in E; cbn -[start_hold] in E;
      destruct (_ =? 0), w; inversion E; subst; cbn -[start_hold] in S; try rewrite state_start_hold in S; discriminate.
Qed.

Lemma new_connection_inv now w ty e p : e = EvAcked \/ e = EvConfirmed -> pinv p -> p_alive p = true -> p_fsm p <> Idle ->
  pinv (fst (new_connection third jit my_open now w ty e p)).
Proof.
  intros He Hi Ha Hf. destruct (Hi Ha) as (Hg & Hr & Hb). unfold new_connection.
  destruct (handle_event now my_open w e _) as [[c ms] ok] eqn:E. destruct ok; [|intros H; discriminate].
  apply first_event in E; [|exact He]. intros _. unfold add_connection. cbn [p_conn setp].
  destruct (p_conn p) as [m|] eqn:Em; cbn.
  - split; [exact Hg|]. split; [discriminate|]. intros x Hx. injection Hx as <-. destruct E; congruence.
  - split; [|split; [discriminate|exact Hb]].
    destruct E as [-> | ->]; cbn; [|reflexivity]. cbn in Hg. destruct Hg as [H|H]; [contradiction|exact H].
Qed.
Lemma poll_not_first now i c e c1 : poll now i c = Some (e, c1) -> e <> EvAcked /\ e <> EvConfirmed.
Proof.
  unfold poll. destruct (due now (c_ka c)); [intros E; inversion E; subst; split; discriminate|].
  destruct (due now (c_delay c)); [intros E; inversion E; subst; split; discriminate|].
  destruct (due now (c_hold c)); [intros E; inversion E; subst; split; discriminate|].
  destruct i as [i|]; [|discriminate]. intros E. injection E as E.
  destruct i as [m errs|x| | |]; cbn in E; [destruct m as [o|u|n| |r]|..]; inversion E; subst; clear E; try (split; discriminate).
  - unfold open_event. destruct (c_peer_asn c) as [a|]; [destruct (a =? my_asn4 o); [|split; discriminate]|];
      destruct (c_delay c); split; discriminate.
  - unfold update_event.
    repeat match goal with |- context [if ?b then _ else _] => destruct b end; split; discriminate.
  - destruct (_ && _); split; discriminate.
  - destruct x as [| | | | |[]]; split; discriminate.
Qed.

(* every transition a connection can make on a polled event has its entry in
   the table of the peer *)
Lemma after_event_total now w e c c' ms f d :
  handle_event now my_open w e c = (c', ms, true) -> e <> EvAcked -> e <> EvConfirmed -> agree f (Some c) ->
  exists f' keep retry n, after_event f d (c_state c) (c_state c') e = Some (f', keep, retry, n)
    /\ agree f' (if keep then Some c' else None) /\ (keep = true -> retry <> Some true).
Proof.
  unfold SpModel.handle_event, on_connected, on_open_sent, on_open_confirm, on_established, notify, stop, agree.
  intros E H1 H2 Hg.
  destruct (c_state c) eqn:S, e; try contradiction; cbn -[negotiate start_negotiated start_hold read_open] in E;
    repeat match type of E with context [if ?b then _ else _] => destruct b end;
    try discriminate E; inversion E; subst; clear E;
    cbn -[negotiate start_negotiated start_hold read_open];
    rewrite ?state_start_negotiated, ?state_negotiate, ?state_start_hold; cbn -[negotiate start_negotiated start_hold read_open]; rewrite ?S;
    repeat match goal with
           | |- exists _ _ _ _, match f with _ => _ end = _ /\ _ => destruct Hg as [-> | ->]; destruct d; cbn
           | |- exists _ _ _ _, Some _ = Some _ /\ _ => do 4 eexists; split; [reflexivity|]; split; [cbn; rewrite ?state_start_negotiated, ?state_negotiate, ?state_start_hold; cbn -[negotiate start_negotiated start_hold read_open]; rewrite ?S; auto 6|try discriminate; intros _ [=]]
           end.
Qed.

Lemma promote_inv w p : pinv p -> p_conn p <> None -> pinv (fst (promote w p)).
Proof.
  intros Hi Hc. unfold promote. destruct (p_tracked p) as [t|] eqn:Et; [|exact Hi].
  intros Ha. destruct (c_state t) eqn:S; cbn in Ha |- *; try discriminate;
    destruct (Hi Ha) as (Hg & Hr & Hb); rewrite Et in Hb.
  - rewrite S. split; [reflexivity|]. split; [intros H; elim Hc; auto|]. intros ? H; discriminate.
  - rewrite S. split; [reflexivity|]. split; [intros H; elim Hc; auto|]. intros ? H; discriminate.
  - elim (Hb t eq_refl S).
Qed.
Lemma drop_tracked_inv w p : pinv p -> pinv (fst (drop_tracked w p)).
Proof. intros Hi Ha. destruct (Hi Ha) as (Hg & Hr & Hb). split; [exact Hg|]. split; [exact Hr|]. intros ? H; discriminate. Qed.
Lemma hide_inv b p : pinv p -> pinv (hide b p).
Proof. exact (fun H => H). Qed.

Lemma agree_state f c c1 : c_state c1 = c_state c -> agree f (Some c) -> agree f (Some c1).
Proof. intros H. cbn. rewrite H. auto. Qed.

Lemma handle_main_inv now w e c p : pinv p -> p_alive p = true -> p_conn p = Some c -> e <> EvAcked -> e <> EvConfirmed ->
  pinv (fst (handle_main third jit my_open now w e c p)).
Proof.
  intros Hi Ha Hc H1 H2. destruct (Hi Ha) as (Hg & Hr & Hb). unfold handle_main.
  destruct (handle_event now my_open w e c) as [[c' ms] ok] eqn:E. destruct ok; [|intros H; discriminate].
  rewrite Hc in Hg.
  destruct (after_event_total _ _ _ _ _ _ (p_fsm p) (match c_delay c' with Some _ => true | None => false end) E H1 H2 Hg) as (f' & keep & retry & n & -> & Hg' & Hk).
  intros _. cbn. split; [exact Hg'|]. split; [|exact Hb].
  destruct keep; [|reflexivity]. destruct retry as [[|]|]; [elim (Hk eq_refl eq_refl)|discriminate|].
  intros H. rewrite (Hr H) in Hc. discriminate.
Qed.

Lemma main_ready_inv now i w p : pinv p -> p_alive p = true -> pinv (fst (main_ready third jit my_open now i w p)).
Proof.
  intros Hi Ha. unfold main_ready. destruct (p_conn p) as [c|] eqn:Ec; [|exact Hi].
  destruct (poll now i c) as [[e c1]|] eqn:P; [|exact Hi].
  destruct (poll_state _ _ _ _ _ P) as [Ps _]. destruct (poll_not_first _ _ _ _ _ P) as [N1 N2].
  set (p1 := setp p _ _ _ _ _).
  assert (Hp1 : pinv p1).
  { intros _. destruct (Hi Ha) as (Hg & Hr & Hb). cbn. rewrite Ec in Hg, Hr.
    split; [exact (agree_state _ _ _ Ps Hg)|]. split; [intros H; discriminate (Hr H)|exact Hb]. }
  destruct (check_collision _ _ _) as [[| |id]|].
  - apply promote_inv; [apply hide_inv, Hp1|discriminate].
  - apply drop_tracked_inv, hide_inv, Hp1.
  - exact Hp1.
  - apply handle_main_inv; auto.
Qed.
Lemma tracked_ready_inv now i w p : pinv p -> p_alive p = true -> pinv (fst (tracked_ready third jit my_open now i w p)).
Proof.
  intros Hi Ha. unfold tracked_ready, seen. destruct (p_hidden p); [exact Hi|].
  destruct (p_tracked p) as [t|] eqn:Et; [|exact Hi].
  destruct (Hi Ha) as (Hg & Hr & Hb).
  assert (G : c_state t <> OpenConfirm ->
    pinv (fst (match poll now i t with
      | None => (p, [])
      | Some (e, t1) =>
        let '(t2, ms, _) := handle_event now my_open w e t1 in
        let p1 := setp p (p_fsm p) (p_conn p) (Some t2) (p_retry p) (p_count p) in
        let '(p2, o) :=
          match check_collision (pf_my_id (p_conf p)) (p_conn p) (Some t2) with
          | Some DropMain => promote w p1
          | Some DropTracked => drop_tracked w p1
          | Some (BadTracked id) => (hide true p1, bad_tracked_out w id)
          | None => (p1, [])
          end in
        (p2, tag OnTracked ms ++ o)
      end))).
  { intros Hoc. destruct (poll now i t) as [[e t1]|] eqn:P; [|exact Hi].
    destruct (poll_state _ _ _ _ _ P) as [Ps _].
    destruct (handle_event now my_open w e t1) as [[t2 ms] ok] eqn:E.
    pose proof (handle_into third jit my_open _ _ _ _ _ _ _ E) as Hin.
    cbv zeta. set (p1 := setp p _ _ _ _ _).
    assert (Hp1 : pinv p1).
    { intros _. split; [exact Hg|]. split; [exact Hr|]. intros x Hx S. cbn in Hx. injection Hx as <-.
      rewrite S in Hin. rewrite Ps in Hin. destruct Hin as [Hin|[Hin _]]; [elim (Hb t Et Hin)|contradiction]. }
    destruct (check_collision _ _ _) as [[| |id]|] eqn:K.
    - destruct (p_conn p) as [m|] eqn:Em; [|discriminate].
      pose proof (promote_inv w p1 Hp1) as HP. destruct (promote w p1). apply HP. cbn. discriminate.
    - pose proof (drop_tracked_inv w p1 Hp1) as HP. destruct (drop_tracked w p1). exact HP.
    - exact Hp1.
    - exact Hp1. }
  destruct (p_fsm p), (c_state t); try exact Hi; apply G; discriminate.
Qed.

Lemma idle_none c : agree Idle c -> c = None.
Proof. destruct c as [c|]; [|reflexivity]. cbn. destruct (c_state c); intros H; try discriminate; [destruct H; discriminate|destruct H]. Qed.
Lemma step_inv p x :
  (match x with PAdmin _ _ => p_fsm p = Idle -> match rev (p_waiting p) with Incoming :: _ => False | _ => True end | _ => True end) ->
  pinv p -> pinv (fst (step p x)).
Proof.
  intros Hx Hi. unfold SpModel.step. destruct (p_alive p) eqn:Ha; cbn [negb]; [|exact Hi].
  destruct (Hi Ha) as (Hg & Hr & Hb).
  destruct x as [a|now m wt w|now w| |now ok w| |now i w|now i w].
  - exact Hi.
  - unfold send_message. cbn [p_tracked p_conn p_fsm p_retry p_count hide].
    set (q := match p_tracked p with Some t => _ | None => _ end).
    assert (Hq : below (fst q)).
    { subst q. destruct (p_tracked p) as [t|] eqn:Et; [|intros ? H; discriminate].
      destruct wt; [|intros ? H; discriminate]. intros y Hy. cbn in Hy. injection Hy as <-. rewrite state_sent. exact (Hb t eq_refl). }
    destruct q as [t o1]. cbn [fst] in Hq. destruct (p_conn p) as [c|] eqn:Ec.
    + destruct w; [|intros H; discriminate]. intros _. cbn. rewrite state_sent.
      split; [exact Hg|]. split; [intros H; discriminate (Hr H)|exact Hq].
    + intros _. cbn. split; [exact Hg|]. split; [reflexivity|exact Hq].
  - destruct (rev (p_waiting p)) as [|a r] eqn:Ew; [exact Hi|].
    set (p0 := hide false (queue (rev r) p)). assert (Hi0 : pinv p0) by exact Hi.
    destruct a; cbn [run_admin].
    + change (p_fsm p0) with (p_fsm p). destruct (p_fsm p) eqn:Ef; try exact Hi0.
      intros _. apply idle_none in Hg. unfold start. destruct (pf_passive _); cbn; rewrite Hg; cbn; auto.
    + intros _. cbn. split; [auto|]. split; [discriminate|]. intros ? H; discriminate.
    + change (p_fsm p0) with (p_fsm p). destruct (p_fsm p) eqn:Ef; try exact Hi0.
      intros _. apply idle_none in Hg. unfold start. destruct (pf_passive _); cbn; rewrite Hg; cbn; auto.
    + intros _. cbn. split; [auto|]. split; [discriminate|]. intros ? H; discriminate.
    + unfold accept. destruct (rejected p0); [exact Hi0|].
      apply new_connection_inv; auto.
  - destruct (p_fsm p) eqn:Ef; try exact Hi; intros _; cbn; rewrite Ef; split; auto.
  - destruct (p_fsm p) eqn:Ef; try exact Hi. destruct (p_allowed p); [|exact Hi].
    destruct ok.
    + apply new_connection_inv; auto. cbn. rewrite Ef. discriminate.
    + intros _. cbn. rewrite Ef. split; [exact Hg|]. split; [discriminate|exact Hb].
  - destruct (p_retry p) eqn:Er; [|exact Hi]. intros _. cbn. rewrite (Hr eq_refl) in Hg. cbn in Hg.
    split; [|split; [auto|exact Hb]]. destruct Hg as [->|[->| ->]]; auto.
  - apply main_ready_inv; auto.
  - apply tracked_ready_inv; auto.
Qed.
Lemma run_inv xs : forall p, not_in_idle p xs -> pinv p -> pinv (fst (run p xs)).
Proof.
  induction xs as [|x xs IH]; intros p Hx Hi; cbn [SpModel.run]; [exact Hi|].
  cbn [SpSpec.not_in_idle] in Hx. destruct Hx as [Hx Hxs].
  pose proof (step_inv p x Hx Hi) as H1. destruct (step p x) as [p1 o] eqn:E. cbn [fst] in *.
  specialize (IH p1 Hxs H1). destruct (run p1 xs). exact IH.
Qed.
Lemma new_inv cf : pinv (peer_new cf).
Proof. intros _. cbn. split; [auto|]. split; [discriminate|]. intros ? H; discriminate. Qed.

(* ---- what is reported ---- *)
Definition reports (p : peer) (o : list pout) : Prop := forall f e, In (PEvent f e) o -> f = p_fsm p.
Lemma tag_no_event l ms f e : ~ In (PEvent f e) (tag l ms).
Proof. unfold tag. rewrite in_map_iff. intros (m & H & _). discriminate. Qed.
Lemma reports_tag l ms p f e o : (forall f' e', In (PEvent f' e') o -> f' = p_fsm p) -> In (PEvent f e) (tag l ms ++ o) -> f = p_fsm p.
Proof. intros H Hi. apply in_app_or in Hi as [Hi|Hi]; [elim (tag_no_event _ _ _ _ Hi)|exact (H _ _ Hi)]. Qed.
Ltac one := intros ? ? [[=]|[]]; subst; auto.
Lemma new_connection_reports now w ty e p p' o : new_connection third jit my_open now w ty e p = (p', o) -> reports p' o.
Proof.
  unfold new_connection. destruct (handle_event now my_open w e _) as [[c ms] ok]. destruct ok; intros E; inversion E; subst;
    intros f ev H; eapply reports_tag; eauto; one.
Qed.
Lemma one_no_event (w : bool) (c : option conn) l m f e :
  ~ In (PEvent f e) (if w then match c with Some _ => [PSent l m] | None => [] end else []).
Proof. destruct w; [|intros []]. destruct c; [intros [H|[]]; discriminate|intros []]. Qed.
Lemma promote_reports w p p' o : promote w p = (p', o) -> reports p' o.
Proof.
  unfold promote. destruct (p_tracked p) as [t|]; [|intros E; inversion E; subst; intros ? ? [[=]|[]]; auto].
  destruct (c_state t); intros E; inversion E; subst; intros f e H;
    try (now (destruct H as [H|H]; [discriminate|destruct H]));
    (apply in_app_or in H as [H|[H|[]]]; [elim (one_no_event _ _ _ _ _ _ H)|inversion H; reflexivity]).
Qed.
Lemma drop_tracked_reports w p p' o : drop_tracked w p = (p', o) -> reports p' o.
Proof.
  unfold drop_tracked. intros E; inversion E; subst; intros f e H. cbn.
  apply in_app_or in H as [H|[H|[]]]; [|inversion H; reflexivity].
  destruct w; [|destruct H]. destruct (p_tracked p); [destruct H as [H|[]]; discriminate|destruct H].
Qed.
Lemma bad_tracked_no_event w id f e : ~ In (PEvent f e) (bad_tracked_out w id).
Proof. unfold bad_tracked_out. destruct w; [intros [H|[]]; discriminate|intros []]. Qed.
Lemma handle_main_reports now w e c p p' o : handle_main third jit my_open now w e c p = (p', o) -> reports p' o.
Proof.
  unfold handle_main. destruct (handle_event now my_open w e c) as [[c' ms] ok]. destruct ok.
  - destruct (after_event _ _ _ _ _) as [[[[f keep] retry] n]|]; intros E; inversion E; subst;
      intros f' ev H; eapply reports_tag; eauto; one.
  - intros E; inversion E; subst; intros f' ev H; eapply reports_tag; eauto; one.
Qed.
Lemma step_reports p x p' o : step p x = (p', o) -> reports p' o.
Proof.
  unfold SpModel.step. destruct (negb (p_alive p)); [intros E; inversion E; subst; intros ? ? []|].
  destruct x as [a|now m wt w|now w| |now ok w| |now i w|now i w].
  - intros E; inversion E; subst; intros ? ? [].
  - unfold send_message. cbn [p_tracked p_conn p_fsm p_retry p_count hide].
    set (q := match p_tracked p with Some t => _ | None => _ end).
    assert (Hq : forall f e, ~ In (PEvent f e) (snd q)).
    { subst q. intros f e. destruct (p_tracked p); [destruct wt|]; cbn; [intros [H|[]]; discriminate|tauto|tauto]. }
    destruct q as [t o1]. cbn [snd] in Hq.
    destruct (p_conn p) as [c|]; [destruct w|]; intros E; inversion E; subst; intros f e H.
    + apply in_app_or in H as [H|[H|[]]]; [elim (Hq _ _ H)|discriminate].
    + apply in_app_or in H as [H|[H|[]]]; [elim (Hq _ _ H)|discriminate].
    + elim (Hq _ _ H).
  - destruct (rev (p_waiting p)) as [|a r]; [intros E; inversion E; subst; intros ? ? []|].
    set (p0 := hide false (queue (rev r) p)).
    assert (Hc : forall f e, ~ In (PEvent f e) (cease_all w p0)).
    { intros f e. unfold cease_all. destruct w; [|tauto]. intros H. apply in_app_or in H as [H|H];
        [destruct (p_conn p0)|destruct (p_tracked p0)]; cbn in H; try tauto; destruct H as [H|[]]; discriminate. }
    destruct a; cbn [run_admin].
    + destruct (p_fsm p0); intros E; inversion E; subst; intros ? ? H; try (now destruct H). destruct H as [H|[]]. inversion H; reflexivity.
    + intros E; inversion E; subst; intros f e H. apply in_app_or in H as [H|[H|[]]]; [elim (Hc _ _ H)|inversion H; reflexivity].
    + destruct (p_fsm p0); intros E; inversion E; subst; intros ? ? H; try (now destruct H). destruct H as [H|[]]. inversion H; reflexivity.
    + intros E; inversion E; subst; intros f e H. apply in_app_or in H as [H|[H|[]]]; [elim (Hc _ _ H)|inversion H; reflexivity].
    + unfold accept. destruct (rejected p0); [|apply new_connection_reports].
      intros E; inversion E; subst; intros f e H. destruct (_ && _); [destruct H as [H|[]]; discriminate|destruct H].
  - intros E; inversion E; subst; intros ? ? [].
  - destruct (p_fsm p) eqn:Ef; try (intros E; inversion E; subst; intros ? ? []).
    destruct (p_allowed p); [|intros E; inversion E; subst; intros ? ? []].
    destruct ok; [apply new_connection_reports|].
    intros E; inversion E; subst; intros f e [H|[]]. inversion H; reflexivity.
  - destruct (p_retry p); intros E; inversion E; subst; [|intros ? ? []]. intros f e [H|[]]. inversion H; reflexivity.
  - unfold main_ready. destruct (p_conn p) as [c|]; [|intros E; inversion E; subst; intros ? ? []].
    destruct (poll now i c) as [[e c1]|]; [|intros E; inversion E; subst; intros ? ? []].
    destruct (check_collision _ _ _) as [[| |id]|].
    + apply promote_reports.
    + apply drop_tracked_reports.
    + intros E; inversion E; subst. intros f ev H. elim (bad_tracked_no_event _ _ _ _ H).
    + apply handle_main_reports.
  - unfold tracked_ready. destruct (seen p) as [t|]; [|intros E; inversion E; subst; intros ? ? []].
    assert (G : (match poll now i t with
      | None => (p, [])
      | Some (e, t1) =>
        let '(t2, ms, _) := handle_event now my_open w e t1 in
        let p1 := setp p (p_fsm p) (p_conn p) (Some t2) (p_retry p) (p_count p) in
        let '(p2, o) :=
          match check_collision (pf_my_id (p_conf p)) (p_conn p) (Some t2) with
          | Some DropMain => promote w p1
          | Some DropTracked => drop_tracked w p1
          | Some (BadTracked id) => (hide true p1, bad_tracked_out w id)
          | None => (p1, [])
          end in
        (p2, tag OnTracked ms ++ o)
      end) = (p', o) -> reports p' o).
    { destruct (poll now i t) as [[e t1]|]; [|intros E; inversion E; subst; intros ? ? []].
      destruct (handle_event now my_open w e t1) as [[t2 ms] ok]. cbv zeta.
      destruct (check_collision _ _ _) as [[| |id]|].
      - destruct (promote w _) as [p2 o2] eqn:K. apply promote_reports in K. intros E; inversion E; subst. intros f ev H. eapply reports_tag; eauto.
      - destruct (drop_tracked w _) as [p2 o2] eqn:K. apply drop_tracked_reports in K. intros E; inversion E; subst. intros f ev H. eapply reports_tag; eauto.
      - intros E; inversion E; subst. intros f ev H. eapply reports_tag; eauto. intros ? ? X. elim (bad_tracked_no_event _ _ _ _ X).
      - intros E; inversion E; subst. intros f ev H. eapply reports_tag; eauto. intros ? ? []. }
    destruct (p_fsm p), (c_state t); try exact G; intros E; inversion E; subst; intros ? ? [].
Qed.

(* ---- a stopped peer ---- *)
Definition down (p : peer) : Prop :=
  p_up p = false -> p_fsm p = Idle /\ p_conn p = None /\ p_tracked p = None /\ p_retry p = false.
Lemma down_step p x : down p -> down (fst (step p x)).
Proof.
  intros Hd. destruct (p_up p) eqn:Hu.
  - (* up: only a stop takes it down *)
    assert (K : p_up (fst (step p x)) = true \/ (exists n, fst (step p x) = shutdown n (p_count (fst (step p x))))).
    2: { destruct K as [K|(n & K)]; intros H; [congruence|]. rewrite K. cbn. auto. }
    unfold SpModel.step. destruct (negb (p_alive p)); [left; exact Hu|].
    destruct x as [a|now m wt w|now w| |now ok w| |now i w|now i w].
    + left; exact Hu.
    + left. unfold send_message. cbn [p_tracked p_conn p_fsm p_retry p_count hide].
      destruct (p_tracked p); [destruct wt|]; (destruct (p_conn p); [destruct w|]); exact Hu.
    + destruct (rev (p_waiting p)) as [|a r]; [left; exact Hu|].
      destruct a; cbn [run_admin].
      * left. cbn [p_fsm hide queue]. destruct (p_fsm p); try exact Hu. unfold start. destruct (pf_passive _); reflexivity.
      * right. exists (hide false (queue (rev r) p)). reflexivity.
      * left. cbn [p_fsm hide queue]. destruct (p_fsm p); try exact Hu. unfold start. destruct (pf_passive _); reflexivity.
      * right. exists (hide false (queue (rev r) p)). reflexivity.
      * left. unfold accept. destruct (rejected _); [exact Hu|]. unfold new_connection.
        destruct (handle_event _ _ _ _ _) as [[c ms] ok]. destruct ok; [|exact Hu]. unfold add_connection. cbn. destruct (p_conn p); exact Hu.
    + left. destruct (p_fsm p); exact Hu.
    + left. destruct (p_fsm p); try exact Hu. destruct (p_allowed p); [|exact Hu]. destruct ok; [|exact Hu]. unfold new_connection.
      destruct (handle_event _ _ _ _ _) as [[c ms] ok]. destruct ok; [|exact Hu]. unfold add_connection. cbn. destruct (p_conn p); exact Hu.
    + left. destruct (p_retry p); exact Hu.
    + left. unfold main_ready. destruct (p_conn p) as [c|]; [|exact Hu]. destruct (poll now i c) as [[e c1]|]; [|exact Hu].
      destruct (check_collision _ _ _) as [[| |id]|]; try exact Hu.
      * unfold promote. cbn. destruct (p_tracked p) as [t|]; [|exact Hu]. destruct (c_state t); exact Hu.
      * unfold handle_main. destruct (handle_event now my_open w e c1) as [[c' ms] ok]. destruct ok; [|exact Hu].
        destruct (after_event _ _ _ _ _) as [[[[f keep] retry] n]|]; exact Hu.
    + left. unfold tracked_ready. destruct (seen p) as [t|]; [|exact Hu].
      assert (G : p_up (fst (match poll now i t with
      | None => (p, [])
      | Some (e, t1) =>
        let '(t2, ms, _) := handle_event now my_open w e t1 in
        let p1 := setp p (p_fsm p) (p_conn p) (Some t2) (p_retry p) (p_count p) in
        let '(p2, o) :=
          match check_collision (pf_my_id (p_conf p)) (p_conn p) (Some t2) with
          | Some DropMain => promote w p1
          | Some DropTracked => drop_tracked w p1
          | Some (BadTracked id) => (hide true p1, bad_tracked_out w id)
          | None => (p1, [])
          end in
        (p2, tag OnTracked ms ++ o)
      end)) = true).
      { destruct (poll now i t) as [[e t1]|]; [|exact Hu].
        destruct (handle_event now my_open w e t1) as [[t2 ms] ok]. cbv zeta.
        destruct (check_collision _ _ _) as [[| |id]|]; try exact Hu.
        unfold promote. cbn. destruct (c_state t2); exact Hu. }
      destruct (p_fsm p), (c_state t); try exact Hu; exact G.
  - destruct (Hd Hu) as (Hf & Hc & Ht & Hr).
    unfold SpModel.step. destruct (negb (p_alive p)); [exact Hd|].
    destruct x as [a|now m wt w|now w| |now ok w| |now i w|now i w].
    + exact Hd.
    + unfold send_message. cbn [p_tracked p_conn p_fsm p_retry p_count hide]. rewrite Hc, Ht. cbn. intros _. cbn. auto.
    + destruct (rev (p_waiting p)) as [|a r]; [exact Hd|].
      destruct a; cbn [run_admin].
      * cbn [p_fsm hide queue]. rewrite Hf. unfold start. destruct (pf_passive _); intros H; discriminate.
      * intros _. cbn. auto.
      * cbn [p_fsm hide queue]. rewrite Hf. unfold start. destruct (pf_passive _); intros H; discriminate.
      * intros _. cbn. auto.
      * unfold accept, rejected. cbn [p_up hide queue]. rewrite Hu. exact Hd.
    + rewrite Hf. exact Hd.
    + rewrite Hf. exact Hd.
    + rewrite Hr. exact Hd.
    + unfold main_ready. rewrite Hc. exact Hd.
    + unfold tracked_ready, seen. rewrite Ht. destruct (p_hidden p); exact Hd.
Qed.
Lemma down_run xs : forall p, down p -> down (fst (run p xs)).
Proof.
  induction xs as [|x xs IH]; intros p Hi; cbn [SpModel.run]; [exact Hi|].
  pose proof (down_step p x Hi) as H1. destruct (step p x) as [p1 o] eqn:E. cbn [fst] in *.
  specialize (IH p1 H1). destruct (run p1 xs). exact IH.
Qed.

(* ---- a started peer without connection waits for a retry ---- *)
Definition busy (p : peer) : Prop :=
  p_alive p = true -> p_fsm p = Connect \/ p_fsm p = Active -> p_conn p <> None \/ p_retry p = true.
Lemma after_event_busy f d b a e f' keep retry n : (b = Connected -> f = Connect \/ f = Active) -> (b <> Connected -> f <> Connect /\ f <> Active) ->
  after_event f d b a e = Some (f', keep, retry, n) -> f' = Connect \/ f' = Active -> keep = true \/ retry = Some true.
Proof.
  intros H1 H2. destruct b, a, e; cbn; try discriminate; intros E; inversion E; subst; auto;
    try (intros [H|H]; discriminate).
  all: try (destruct d; inversion E; subst; auto; intros [H|H]; discriminate).
  all: destruct (H1 eq_refl) as [-> | ->]; destruct d; inversion E; subst; auto; intros [H|H]; discriminate.
Qed.
Lemma handle_main_busy now w e c p : pinv p -> p_alive p = true -> p_conn p = Some c -> busy (fst (handle_main third jit my_open now w e c p)).
Proof.
  intros Hi Ha Hc. destruct (Hi Ha) as (Hg & Hr & Hb). rewrite Hc in Hg. unfold handle_main.
  destruct (handle_event now my_open w e c) as [[c' ms] ok] eqn:E. destruct ok; [|intros H; discriminate].
  destruct (after_event _ _ _ _ _) as [[[[f keep] retry] n]|] eqn:A; [|intros H; discriminate].
  intros _ Hf. cbn in Hf |- *.
  assert (H1 : c_state c = Connected -> p_fsm p = Connect \/ p_fsm p = Active) by (intros S; cbn in Hg; rewrite S in Hg; exact Hg).
  assert (H2 : c_state c <> Connected -> p_fsm p <> Connect /\ p_fsm p <> Active).
  { intros S. cbn in Hg. destruct (c_state c); try contradiction; rewrite Hg; split; discriminate. }
  destruct (after_event_busy _ _ _ _ _ _ _ _ _ H1 H2 A Hf) as [-> | ->]; [left; discriminate|right; reflexivity].
Qed.
Lemma busy_step p x : no_failed_connect x -> pinv p -> busy p -> busy (fst (step p x)).
Proof.
  intros Hx Hi Hb. unfold SpModel.step. destruct (p_alive p) eqn:Ha; cbn [negb]; [|exact Hb].
  destruct x as [a|now m wt w|now w| |now ok w| |now i w|now i w].
  - exact Hb.
  - unfold send_message. cbn [p_tracked p_conn p_fsm p_retry p_count hide].
    assert (K : forall t (o : list pout), busy (fst (match p_conn p with
      | Some c => if w then (setp (hide false p) (p_fsm p) (Some (sent now m c)) t (p_retry p) (p_count p), o ++ [PSent OnMain m])
                  else (die (setp (hide false p) (p_fsm p) (Some c) t (p_retry p) (p_count p)), o ++ [PError])
      | None => (setp (hide false p) (p_fsm p) None t (p_retry p) (p_count p), o) end))).
    { intros t o. destruct (p_conn p) as [c|] eqn:Ec; [destruct w|]; intros Hal Hf; try discriminate; cbn in *; [left; discriminate|].
      destruct (Hb Ha Hf) as [H|H]; [congruence|auto]. }
    destruct (p_tracked p); [destruct wt|]; apply K.
  - destruct (rev (p_waiting p)) as [|a r]; [exact Hb|].
    set (p0 := hide false (queue (rev r) p)). assert (Hb0 : busy p0) by exact Hb.
    destruct a; cbn [run_admin].
    + destruct (p_fsm p0); try exact Hb0. unfold start. destruct (pf_passive _); intros _ _; right; reflexivity.
    + intros _ [H|H]; discriminate.
    + destruct (p_fsm p0); try exact Hb0. unfold start. destruct (pf_passive _); intros _ _; right; reflexivity.
    + intros _ [H|H]; discriminate.
    + unfold accept. destruct (rejected p0); [exact Hb0|]. unfold new_connection.
      destruct (handle_event _ _ _ _ _) as [[c ms] ok]. destruct ok; [|intros H; discriminate]. unfold add_connection. cbn.
      destruct (p_conn p); intros _ _; left; discriminate.
  - destruct (p_fsm p) eqn:Ef; intros _ Hf; cbn in *; rewrite ?Ef in *; apply Hb; auto; rewrite Ef; auto.
  - destruct (p_fsm p) eqn:Ef; try exact Hb. destruct (p_allowed p); [|exact Hb].
    destruct ok; [|destruct Hx]. unfold new_connection.
    destruct (handle_event _ _ _ _ _) as [[c ms] ok]. destruct ok; [|intros H; discriminate]. unfold add_connection. cbn.
    destruct (p_conn p); intros _ _; left; discriminate.
  - destruct (p_retry p); [|exact Hb]. intros _ _. right. reflexivity.
  - unfold main_ready. destruct (p_conn p) as [c|] eqn:Ec; [|exact Hb].
    destruct (poll now i c) as [[e c1]|] eqn:P; [|exact Hb].
    destruct (poll_state _ _ _ _ _ P) as [Ps _].
    destruct (check_collision _ _ _) as [[| |id]|].
    + unfold promote. cbn. destruct (p_tracked p) as [t|]; [|intros _ _; left; discriminate].
      destruct (c_state t); intros H Hf; try discriminate; left; discriminate.
    + intros _ _. left. discriminate.
    + intros _ _. left. discriminate.
    + apply handle_main_busy; [|exact Ha|reflexivity].
      intros _. destruct (Hi Ha) as (Hg & Hr & Hbl). cbn. rewrite Ec in Hg, Hr. split; [exact (agree_state _ _ _ Ps Hg)|].
      split; [intros H; discriminate (Hr H)|exact Hbl].
  - unfold tracked_ready. destruct (seen p) as [t|]; [|exact Hb].
    assert (G : busy (fst (match poll now i t with
      | None => (p, [])
      | Some (e, t1) =>
        let '(t2, ms, _) := handle_event now my_open w e t1 in
        let p1 := setp p (p_fsm p) (p_conn p) (Some t2) (p_retry p) (p_count p) in
        let '(p2, o) :=
          match check_collision (pf_my_id (p_conf p)) (p_conn p) (Some t2) with
          | Some DropMain => promote w p1
          | Some DropTracked => drop_tracked w p1
          | Some (BadTracked id) => (hide true p1, bad_tracked_out w id)
          | None => (p1, [])
          end in
        (p2, tag OnTracked ms ++ o)
      end))).
    { destruct (poll now i t) as [[e t1]|]; [|exact Hb].
      destruct (handle_event now my_open w e t1) as [[t2 ms] ok]. cbv zeta.
      destruct (check_collision _ _ _) as [[| |id]|]; try exact Hb.
      unfold promote. cbn. destruct (c_state t2); intros H Hf; try discriminate; left; discriminate. }
    destruct (p_fsm p), (c_state t); try exact Hb; exact G.
Qed.
Lemma busy_run xs : forall p, not_in_idle p xs -> Forall no_failed_connect xs -> pinv p -> busy p -> busy (fst (run p xs)).
Proof.
  induction xs as [|x xs IH]; intros p Hx Hn Hi Hb; cbn [SpModel.run]; [exact Hb|].
  cbn [SpSpec.not_in_idle] in Hx. destruct Hx as [Hx Hxs]. inversion Hn as [|? ? Hnx Hns]; subst.
  pose proof (step_inv p x Hx Hi) as H1. pose proof (busy_step p x Hnx Hi Hb) as H2.
  destruct (step p x) as [p1 o] eqn:E. cbn [fst] in *.
  specialize (IH p1 Hxs Hns H1 H2). destruct (run p1 xs). exact IH.
Qed.

(* ---- a peer without a second connection goes on ---- *)
Lemma new_connection_alive now ty e p : p_alive p = true -> p_alive (fst (new_connection third jit my_open now true ty e p)) = true.
Proof.
  intros Ha. unfold new_connection. destruct (handle_event now my_open true e _) as [[c ms] ok] eqn:E.
  apply handle_next in E as [-> _]. unfold add_connection. cbn. destruct (p_conn p); exact Ha.
Qed.
Lemma alive_step p x : can_write x -> pinv p -> p_alive p = true -> p_tracked p = None -> p_alive (fst (step p x)) = true.
Proof.
  intros Hw Hi Ha Ht. destruct (Hi Ha) as (Hg & Hr & Hb). unfold SpModel.step. rewrite Ha. cbn [negb].
  destruct x as [a|now m wt w|now w| |now ok w| |now i w|now i w]; cbn in Hw; try subst w.
  - exact Ha.
  - unfold send_message. cbn [p_tracked p_conn p_fsm p_retry p_count hide]. rewrite Ht. destruct (p_conn p); exact Ha.
  - destruct (rev (p_waiting p)) as [|a r]; [exact Ha|].
    set (p0 := hide false (queue (rev r) p)).
    destruct a; cbn [run_admin]; try exact Ha.
    + destruct (p_fsm p0); try exact Ha. unfold start. destruct (pf_passive _); exact Ha.
    + destruct (p_fsm p0); try exact Ha. unfold start. destruct (pf_passive _); exact Ha.
    + unfold accept. destruct (rejected p0); [exact Ha|]. apply new_connection_alive, Ha.
  - destruct (p_fsm p); exact Ha.
  - destruct (p_fsm p); try exact Ha. destruct (p_allowed p); [|exact Ha]. destruct ok; [apply new_connection_alive, Ha|exact Ha].
  - destruct (p_retry p); exact Ha.
  - unfold main_ready, seen. rewrite Ht. destruct (p_conn p) as [c|] eqn:Ec; [|exact Ha].
    destruct (poll now i c) as [[e c1]|] eqn:P; [|exact Ha].
    destruct (poll_state _ _ _ _ _ P) as [Ps _]. destruct (poll_not_first _ _ _ _ _ P) as [N1 N2].
    assert (check_collision (pf_my_id (p_conf p)) (Some c1) (if p_hidden p then None else None) = None) as ->
      by (destruct (p_hidden p); reflexivity).
    unfold handle_main. destruct (handle_event now my_open true e c1) as [[c' ms] ok] eqn:E.
    destruct (handle_next _ _ _ _ _ _ _ _ _ E) as [-> _].
    destruct (after_event_total _ _ _ _ _ _ (p_fsm p) (match c_delay c' with Some _ => true | None => false end) E N1 N2 (agree_state _ _ _ Ps Hg)) as (f' & keep & retry & n & H & _).
    cbn [p_fsm hide setp]. rewrite H. exact Ha.
  - unfold tracked_ready, seen. rewrite Ht. destruct (p_hidden p); exact Ha.
Qed.

(* ---- collisions ---- *)
Lemma collision_own ia ib ma ta mb tb :
  ia <> ib ->
  c_type ma = CActive -> c_type ta = CPassive -> c_type mb = CActive -> c_type tb = CPassive ->
  c_peer_id ma = Some ib -> c_peer_id ta = Some ib -> c_peer_id mb = Some ia -> c_peer_id tb = Some ia ->
  exists da db, check_collision ia (Some ma) (Some ta) = Some da /\ check_collision ib (Some mb) (Some tb) = Some db /\
    initiator SpA (keeps da ma ta) = (if ia <? ib then SpB else SpA) /\
    initiator SpB (keeps db mb tb) = (if ia <? ib then SpB else SpA).
Proof.
  intros Hd T1 T2 T3 T4 I1 I2 I3 I4. unfold check_collision. rewrite I1, I2, I3, I4, !N.eqb_refl. cbn [negb].
  unfold initiator. destruct (N.ltb_spec ia ib), (N.ltb_spec ib ia); try lia;
    do 2 eexists; (split; [reflexivity|]; split; [reflexivity|]; cbn [keeps]; rewrite ?T1, ?T2, ?T3, ?T4; split; reflexivity).
Qed.
End Peer.

(* ---- the OPEN of the policy ---- *)
Lemma cap_eqb_spec a b : reflect (a = b) (cap_eqb a b).
Proof. unfold cap_eqb. destruct (cap_eq_dec a b); constructor; assumption. Qed.
Lemma contains_spec cs c : contains cs c = true <-> In c cs.
Proof.
  unfold contains. rewrite existsb_exists. split.
  - intros (x & Hx & E). destruct (cap_eqb_spec c x); [subst; exact Hx|discriminate].
  - intros H. exists c. split; [exact H|]. destruct (cap_eqb_spec c c); [reflexivity|contradiction].
Qed.
Lemma asn4_filter f cs : (forall a, In (CFourOctetAs a) cs -> False) -> asn4_caps (filter f cs) = [].
Proof.
  intros H. destruct (asn4_caps (filter f cs)) as [|x l] eqn:E; [reflexivity|]. exfalso.
  assert (Hx : In x (asn4_caps (filter f cs))) by (rewrite E; now left).
  apply asn4_caps_in, filter_In in Hx as [Hx _]. exact (H _ Hx).
Qed.
Lemma last_all (l : list N) a d : (forall x, In x l -> x = a) -> l <> [] -> last l d = a.
Proof.
  induction l as [|x l IH]; intros H Hn; [contradiction|]. destruct l as [|y l]; [cbn; apply H; now left|].
  change (last (x :: y :: l) d) with (last (y :: l) d). apply IH; [|discriminate]. intros z Hz. apply H. now right.
Qed.
Lemma open_caps_one hdr hold id cs : open_caps (mkOpen hdr hold id (match cs with [] => [] | _ => [cs] end)) = cs.
Proof. destruct cs; [reflexivity|]. unfold open_caps. cbn. rewrite app_nil_r. reflexivity. Qed.
Lemma policy_open_asn my_asn d id hold caps reject peer :
  my_asn < 4294967296 ->
  (forall a, In (CFourOctetAs a) caps -> a = my_asn) -> (forall a, ~ In (CFourOctetAs a) peer) ->
  my_asn4 (policy_open my_asn d id hold caps reject peer) = my_asn.
Proof.
  intros Hb Hc Hp. unfold policy_open. cbv zeta. set (hdr := if 65535 <? my_asn then as_trans else my_asn).
  unfold my_asn4. rewrite open_caps_one, asn4_caps_app. rewrite (asn4_filter _ peer) by (intros a Ha; exact (Hp a Ha)). rewrite app_nil_r. cbn [o_as].
  destruct ((d || (hdr =? as_trans)) && negb (contains caps (CFourOctetAs my_asn))) eqn:D.
  - apply last_all; [|discriminate]. intros x [<-|Hx]; [reflexivity|]. apply Hc, asn4_caps_in, Hx.
  - destruct (asn4_caps caps) as [|x l] eqn:E.
    + cbn. subst hdr. destruct (N.ltb_spec 65535 my_asn) as [H|H]; [|reflexivity]. exfalso.
      rewrite N.eqb_refl, orb_true_r in D. cbn in D. apply negb_false_iff, contains_spec, asn4_caps_in in D. rewrite E in D. destruct D.
    + rewrite <- E. apply last_all; [|rewrite E; discriminate]. intros y Hy. apply Hc, asn4_caps_in, Hy.
Qed.

Lemma handle_peer_id third jit now my_open w e c c' ms ok :
  handle_event third jit now my_open w e c = (c', ms, ok) ->
  c_peer_id c' = c_peer_id c \/ exists o, (e = EvOpen o \/ e = EvOpenDelay o) /\ c_peer_id c' = Some (o_id o).
Proof.
  unfold handle_event, on_connected, on_open_sent, on_open_confirm, on_established, notify, stop, sent, start_hold, start_negotiated, negotiate, read_open.
  destruct (c_state c), e; cbn;
    repeat (match goal with |- context [if ?b then _ else _] => destruct b end; cbn);
    intros H; injection H as <- <- <-; cbn; try (left; reflexivity); right; eexists; (split; [auto|reflexivity]).
Qed.
