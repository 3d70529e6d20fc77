(* Proofs about the supervisors: progress, subscriptions, shutdown. *)
From Coq Require Import List Bool Arith Lia Permutation Sorted.
From Verif Require Import SvModel SvSpec SvProofs SvProofs2.
Import ListNotations.

Section P.
Variable v : service.
Variable order : list nat.
Variable buffer : nat.
Notation step := (step v order buffer).
Notation reachable := (reachable v order buffer).
Notation tr := (tr v order buffer).
Notation Kinds := (Kinds order).
Notation Prefix := (Prefix order).

Ltac fields := cbn [s_queue s_control s_listeners s_replies s_calls s_refused s_panicked s_gone s_dropped] in *.
Ltac lfields := cbn [l_end l_queue l_subs l_next l_done push end_listener alive] in *.
Ltac on_set b a := destruct (Nat.eq_dec b a) as [->|]; [rewrite ?set_same in *|rewrite ?set_other in * by assumption].

(* ---- the commands the supervisor waits for ---- *)
Definition plain (m : command) : Prop := match m with AUnsubscribe _ => False | AShutdown _ => False | _ => True end.
Definition waiting (k : control) : option (nat * command) :=
  match k with
  | Unsubscribing c ((a, id :: _) :: _) _ Sent => Some (a, AUnsubscribe id)
  | ShuttingDown c (a :: _) true => Some (a, AShutdown c)
  | _ => None
  end.
Definition tail_for (k : control) (a : nat) : list command :=
  match waiting k with Some (b, m) => if b =? a then [m] else [] | None => [] end.
Definition Sync (s : state) : Prop := forall a, alive (s_listeners s a) = true ->
  exists pre, Forall plain pre /\ l_queue (s_listeners s a) = pre ++ tail_for (s_control s) a.

Lemma tail_none k a : waiting k = None -> tail_for k a = [].
Proof. intros E. unfold tail_for. rewrite E. reflexivity. Qed.

Lemma sync_tr s e s' : Kinds s -> Sync s -> tr s e s' -> Sync s'.
Proof.
  intros K S H. pose proof (K_out order s K) as Ko. unfold Sync in *. destruct H; fields; intros z Hz; try exact (S z Hz).
  - (* take *) rewrite tail_none by (destruct x; cbn; try reflexivity; destruct order as [|? ?]; cbn; try reflexivity; destruct (named subs n); reflexivity).
    rewrite <- (tail_none Idle z) by reflexivity. auto.
  - on_set z a.
    + destruct (S a H) as (pre & Hp & E). exists (pre ++ [bcmd sub c]). split; [apply Forall_app; split; [exact Hp|constructor; [destruct sub; exact I|constructor]]|].
      lfields. rewrite E. cbn. rewrite !app_nil_r. reflexivity.
    + apply (S z Hz).
  - destruct (S z Hz) as (pre & Hp & E). exists pre. split; [exact Hp|]. rewrite E. f_equal. unfold tail_for. cbn. destruct rest as [|[b0 [|? ?]] ?], w; reflexivity.
  - destruct (S z Hz) as (pre & Hp & E). exists pre. split; [exact Hp|]. rewrite E. f_equal. unfold tail_for. cbn. destruct ids; reflexivity.
  - on_set z a.
    + destruct (S a H) as (pre & Hp & E). exists pre. split; [exact Hp|]. lfields. rewrite E. unfold tail_for. cbn. rewrite Nat.eqb_refl, app_nil_r. reflexivity.
    + destruct (S z Hz) as (pre & Hp & E). exists pre. split; [exact Hp|]. rewrite E. unfold tail_for. cbn.
      assert (Ez : a =? z = false) by (apply Nat.eqb_neq; auto). rewrite Ez. reflexivity.
  - destruct (S z Hz) as (pre & Hp & E). exists pre. split; [exact Hp|]. rewrite E. f_equal. unfold tail_for. cbn.
    assert (Ez : a =? z = false) by (apply Nat.eqb_neq; intros ->; congruence). rewrite Ez. destruct ids; reflexivity.
  - destruct (S z Hz) as (pre & Hp & E). exists pre. split; [exact Hp|]. rewrite E. f_equal. unfold tail_for. cbn. destruct ids; reflexivity.
  - destruct (S z Hz) as (pre & Hp & E). exists pre. split; [exact Hp|]. rewrite E. f_equal. unfold tail_for. cbn.
    assert (Ez : a =? z = false) by (apply Nat.eqb_neq; intros ->; congruence).
    destruct w; cbn; rewrite ?Ez; destruct rest; reflexivity.
  - on_set z a.
    + destruct (S a H) as (pre & Hp & E). exists pre. split; [exact Hp|]. lfields. rewrite E. unfold tail_for. cbn. rewrite Nat.eqb_refl, app_nil_r. reflexivity.
    + destruct (S z Hz) as (pre & Hp & E). exists pre. split; [exact Hp|]. rewrite E. unfold tail_for. cbn.
      assert (Ez : a =? z = false) by (apply Nat.eqb_neq; auto). rewrite Ez. reflexivity.
  - on_set z a; [discriminate Hz|auto].
  - on_set z a; [|auto]. destruct (S a H) as (pre & Hp & E). rewrite H0 in E. destruct pre as [|m pre].
    + exfalso. unfold tail_for in E. destruct k as [| |c0 [|[b0 [|? ?]] ?] b [| |]|c0 [|? ?] []|]; cbn in E; try discriminate;
        match type of E with context [if ?x then _ else _] => destruct x; discriminate end.
    + inversion E; subst. inversion Hp; subst. exists pre. auto.
  - on_set z a; [|auto]. destruct (S a H) as (pre & Hp & E). rewrite H0 in E. destruct pre as [|m pre].
    + exfalso. unfold tail_for in E. destruct k as [| |c0 [|[b0 [|? ?]] ?] b [| |]|c0 [|? ?] []|]; cbn in E; try discriminate;
        match type of E with context [if ?x then _ else _] => destruct x; discriminate end.
    + inversion E; subst. inversion Hp; subst. exists pre. auto.
  - (* unsubscribe handled *)
    destruct (S a H) as (pre & Hp & E). rewrite H0 in E. destruct pre as [|m pre]; [|inversion E; subst; inversion Hp; subst; contradiction].
    assert (W : waiting k = Some (a, AUnsubscribe id) /\ rest = []).
    { unfold tail_for in E. cbn in E. destruct (waiting k) as [[b m]|]; [|discriminate]. destruct (b =? a) eqn:Eb; [|discriminate].
      apply Nat.eqb_eq in Eb. inversion E; subst. auto. }
    destruct W as [W ->].
    assert (Wk : waiting k' = None).
    { destruct k as [| |c0 [|[b0 [|? ?]] ?] b [| |]|c0 [|? ?] []|]; cbn in W; try discriminate; subst; reflexivity. }
    rewrite (tail_none k') by exact Wk. on_set z a.
    + exists []. split; [constructor|reflexivity].
    + destruct (S z Hz) as (pre & Hp' & E'). exists pre. split; [exact Hp'|]. rewrite E'. f_equal. unfold tail_for. rewrite W.
      assert (Ez : a =? z = false) by (apply Nat.eqb_neq; auto). rewrite Ez. reflexivity.
  - on_set z a; [discriminate Hz|auto].
  - on_set z a; [discriminate Hz|auto].
  - exfalso. destruct (in_dec Nat.eq_dec z order) as [Hi|Hi]; [rewrite H0 in Hz by exact Hi|rewrite Ko in Hz by exact Hi]; discriminate.
Qed.
Lemma sync_init : Sync (init order).
Proof. intros a _. exists []. split; [constructor|reflexivity]. Qed.
Lemma sync s : reachable s -> Sync s.
Proof.
  intros H. assert (G : Kinds s /\ Sync s); [|apply G]. revert s H.
  apply (inv_reachable v order buffer (fun s => Kinds s /\ Sync s)); [split; [apply kinds_init|apply sync_init]|].
  intros s e s' [A B] T. split; [eapply kinds_tr; eauto|eapply sync_tr; eauto].
Qed.

(* ---- nothing left to do ---- *)
Lemma quiet_state s : reachable s -> quiet v order buffer s ->
  s_queue s = [] /\ (forall a, l_queue (s_listeners s a) = []) /\
  ((s_control s = Idle /\ s_dropped s = false) \/ (s_control s = Ended /\ forall a, alive (s_listeners s a) = false)).
Proof.
  intros Hr Q. pose proof (kinds v order buffer s Hr) as K. pose proof (sync s Hr) as S.
  assert (A : forall a, l_queue (s_listeners s a) = [] /\ (s_control s = Ended -> alive (s_listeners s a) = false)).
  { intros a. destruct (alive (s_listeners s a)) eqn:El; [|split; [apply (K_dead order s K); exact El|auto]].
    pose proof (Q (Act a) I) as E. cbn in E. unfold act_step in E. rewrite El in E. cbn [negb] in E.
    destruct (l_queue (s_listeners s a)) as [|[]]; try discriminate. split; [reflexivity|]. intros Ek. rewrite Ek in E. discriminate. }
  pose proof (Q Sup I) as E. cbn in E. unfold sup_step, send in E.
  destruct (s_control s) as [|c sub todo|c todo b w|c todo w|] eqn:Ek.
  - destruct (s_queue s) as [|[c x] q]; [|discriminate]. split; [reflexivity|]. split; [intros a; apply A|]. left. split; [reflexivity|]. destruct (s_dropped s); [discriminate|reflexivity].
  - exfalso. destruct todo as [|a rest]; [discriminate|]. rewrite (proj1 (A a)) in E. destruct (alive (s_listeners s a)); discriminate.
  - exfalso. destruct todo as [|[a [|id ids]] rest]; try discriminate. destruct w; try discriminate.
    + rewrite (proj1 (A a)) in E. destruct (alive (s_listeners s a)); discriminate.
    + destruct (alive (s_listeners s a)) eqn:El; [|discriminate]. destruct (S a El) as (pre & _ & Eq). rewrite (proj1 (A a)), Ek in Eq.
      unfold tail_for in Eq. cbn in Eq. rewrite Nat.eqb_refl in Eq. destruct pre; discriminate.
  - exfalso. destruct todo as [|a rest]; [discriminate|]. destruct w.
    + destruct (alive (s_listeners s a)) eqn:El; [|discriminate]. destruct (S a El) as (pre & _ & Eq). rewrite (proj1 (A a)), Ek in Eq.
      unfold tail_for in Eq. cbn in Eq. rewrite Nat.eqb_refl in Eq. destruct pre; discriminate.
    + rewrite (proj1 (A a)) in E. destruct (alive (s_listeners s a)); discriminate.
  - split; [apply (K_ended order s K); exact Ek|]. split; [intros a; apply A|]. right. split; [reflexivity|]. intros a. apply A. reflexivity.
Qed.

(* ---- every step of the tasks uses up some work ---- *)
Definition sum (l : list nat) : nat := fold_right plus 0 l.
Definition hand_u (todo : list (nat * list nat)) : nat := sum (map (fun p => 3 + 4 * length (snd p)) todo).
Definition hand (k : control) : nat :=
  match k with
  | Idle => 1
  | Broadcasting _ _ todo => 2 + 2 * length todo
  | Unsubscribing _ todo _ w => 2 + hand_u todo + match w with NotSent => 2 | _ => 0 end
  | ShuttingDown _ todo w => 2 + 4 * length todo + if w then 0 else 2
  | Ended => 0
  end.
Definition lwork (l : listener) : nat := length (l_queue l) + if alive l then 1 else 0.
Definition work (s : state) : nat :=
  sum (map (fun p => hand (taken order (snd p) (fst p))) (s_queue s)) + hand (s_control s)
  + sum (map (fun a => lwork (s_listeners s a)) order).

Lemma sum_set L a l : NoDup order -> In a order ->
  sum (map (fun b => lwork (set_listener L a l b)) order) + lwork (L a) = sum (map (fun b => lwork (L b)) order) + lwork l.
Proof.
  induction order as [|x o IH]; intros Hn Ha; [destruct Ha|]. inversion Hn; subst. cbn [map sum fold_right]. fold (sum (map (fun b => lwork (set_listener L a l b)) o)). fold (sum (map (fun b => lwork (L b)) o)).
  destruct (Nat.eq_dec x a) as [->|Hx].
  - rewrite set_same. assert (E : map (fun b => lwork (set_listener L a l b)) o = map (fun b => lwork (L b)) o).
    { apply map_ext_in. intros b Hb. rewrite set_other; [reflexivity|]. intros ->. contradiction. }
    rewrite E. lia.
  - rewrite set_other by assumption. destruct Ha as [->|Ha]; [contradiction|]. specialize (IH H2 Ha). lia.
Qed.

Lemma work_step s e s' : NoDup order -> Kinds s -> internal e -> tr s e s' -> work s' < work s.
Proof.
  intros Hn K Hi H. pose proof (K_out order s K) as Ko. unfold work.
  assert (HIn : forall L a, (forall a, ~ In a order -> alive (L a) = false) -> alive (L a) = true -> In a order).
  { intros L a Hk Hl. destruct (in_dec Nat.eq_dec a order) as [|Hc]; [assumption|]. rewrite Hk in Hl by exact Hc. discriminate. }
  destruct H; try contradiction; fields; cbn [hand map sum fold_right length snd fst]; try lia.
  - fold (sum (map (fun p => hand (taken order (snd p) (fst p))) q)). lia.
  - pose proof (sum_set L a (push (L a) (bcmd sub c)) Hn (HIn L a Ko H)) as E. unfold lwork at 2 4 in E. lfields. unfold alive in *. lfields. rewrite app_length in E. cbn [length] in E. lia.
  - unfold hand_u. cbn [map sum fold_right snd length]. fold (sum (map (fun p : nat * list nat => 3 + 4 * length (snd p)) rest)). destruct w; lia.
  - unfold hand_u. cbn [map sum fold_right snd length]. fold (sum (map (fun p : nat * list nat => 3 + 4 * length (snd p)) rest)). lia.
  - pose proof (sum_set L a (push (L a) (AUnsubscribe id)) Hn (HIn L a Ko H)) as E. unfold lwork at 2 4 in E. lfields. unfold alive in *. lfields. rewrite app_length in E. cbn [length] in E. lia.
  - unfold hand_u. cbn [map sum fold_right snd length]. fold (sum (map (fun p : nat * list nat => 3 + 4 * length (snd p)) rest)). lia.
  - unfold hand_u. cbn [map sum fold_right snd length]. fold (sum (map (fun p : nat * list nat => 3 + 4 * length (snd p)) rest)). lia.
  - pose proof (sum_set L a (push (L a) (AShutdown c)) Hn (HIn L a Ko H)) as E. unfold lwork at 2 4 in E. lfields. unfold alive in *. lfields. rewrite app_length in E. cbn [length] in E. lia.
  - pose proof (sum_set L a (end_listener (L a) ChannelClosed) Hn (HIn L a Ko H)) as E. unfold lwork at 2 4 in E. rewrite H in E. unfold alive in E. lfields. cbn [length] in E. lia.
  - match goal with |- context [set_listener L a ?l] => pose proof (sum_set L a l Hn (HIn L a Ko H)) as E end.
    unfold lwork at 2 4 in E. unfold alive in *. lfields. rewrite H0 in E. cbn [length] in E. lia.
  - match goal with |- context [set_listener L a ?l] => pose proof (sum_set L a l Hn (HIn L a Ko H)) as E end.
    unfold lwork at 2 4 in E. unfold alive in *. lfields. rewrite H0 in E. cbn [length] in E. lia.
  - match goal with |- context [set_listener L a ?l] => pose proof (sum_set L a l Hn (HIn L a Ko H)) as E end.
    unfold lwork at 2 4 in E. unfold alive in *. lfields. rewrite H0 in E. cbn [length] in E.
    assert (Ek : hand k' <= hand k) by (destruct k as [| |c todo b [| |]| |]; subst; cbn; lia). lia.
  - pose proof (sum_set L a (end_listener (L a) (ToldBy c)) Hn (HIn L a Ko H)) as E. unfold lwork at 2 4 in E. rewrite H in E. unfold alive in E. lfields. cbn [length] in E. lia.
Qed.
Lemma work_runs s es s' : NoDup order -> reachable s -> Forall internal es -> runs v order buffer s es s' -> length es + work s' <= work s.
Proof.
  intros Hn Hr Hi H. induction H; [cbn; lia|]. inversion Hi; subst. cbn [length].
  assert (Hr1 : reachable s1) by (eapply reachable_step; eauto). specialize (IHruns Hr1 H4).
  pose proof (work_step s e s1 Hn (kinds v order buffer s Hr) H3 (step_tr v order buffer _ _ _ H)). lia.
Qed.

(* ---- the order in the supervisor's queue ---- *)
Definition held (k : control) : list nat := match in_hand k with Some c => [c] | None => [] end.
Definition Ordered (s : state) : Prop := StronglySorted lt (held (s_control s) ++ map fst (s_queue s)).
Lemma ss_snoc l x : StronglySorted lt l -> Forall (fun y => y < x) l -> StronglySorted lt (l ++ [x]).
Proof.
  induction 1 as [|y l H1 IH H2]; cbn; intros F; [constructor; constructor|]. inversion F; subst. constructor; [auto|].
  apply Forall_app. split; [exact H2|]. constructor; [assumption|constructor].
Qed.
Lemma ss_app_r l m : StronglySorted lt (l ++ m) -> StronglySorted lt m.
Proof. induction l; cbn; [auto|]. intros H. inversion H; auto. Qed.
Lemma held_lt s : Kinds s -> Forall (fun c => c < length (s_calls s)) (held (s_control s) ++ map fst (s_queue s)).
Proof.
  intros K. apply Forall_app. split.
  - pose proof (K_ctl order s K) as C. unfold held. destruct (s_control s); cbn in *; constructor; try constructor; apply nth_error_Some; try (destruct C as [[subs C] _]; congruence); destruct C; congruence.
  - pose proof (K_queue order s K) as C. rewrite Forall_map. eapply Forall_impl; [|exact C]. cbn. intros p Hp. apply nth_error_Some. congruence.
Qed.
Lemma ordered_tr s e s' : Kinds s -> Ordered s -> tr s e s' -> Ordered s'.
Proof.
  intros K O H. pose proof (held_lt s K) as Hl. unfold Ordered in *. destruct H; fields; auto;
    try exact O; try (apply ss_app_r in O; exact O); try constructor.
  - rewrite map_app, app_assoc. apply ss_snoc; assumption.
  - unfold held in *. destruct x; cbn in *; exact O.
  - destruct k as [| |c todo b [| |]| |]; subst; exact O.
Qed.
Lemma ordered s : reachable s -> Ordered s.
Proof.
  intros H. assert (G : Kinds s /\ Ordered s); [|apply G]. revert s H.
  apply (inv_reachable v order buffer (fun s => Kinds s /\ Ordered s)); [split; [apply kinds_init|constructor]|].
  intros s e s' [A B] T. split; [eapply kinds_tr; eauto|eapply ordered_tr; eauto].
Qed.

(* ---- an ended listener stays ended ---- *)
Lemma dead_tr s e s' a : alive (s_listeners s a) = false -> tr s e s' -> s_listeners s' a = s_listeners s a.
Proof. intros D H. destruct H; fields; auto; rewrite set_other; auto; intros ->; congruence. Qed.

(* ---- shutdown ---- *)
Definition Shut (s : state) : Prop :=
  (forall c, In (c, ShutDone) (s_replies s) -> s_control s = Ended /\ forall a, In a order -> alive (s_listeners s a) = false) /\
  match s_control s with
  | ShuttingDown c todo _ => exists pre, order = pre ++ todo /\ forall a, In a pre -> alive (s_listeners s a) = false
  | _ => True
  end /\
  forall a c, l_end (s_listeners s a) = Some (ToldBy c) -> c < length (s_calls s) /\
    forall d, In d (accepted_broadcasts s) -> d < c -> In d (l_done (s_listeners s a)).
Lemma in_give g R c r p : In p (give g R c r) -> In p R \/ p = (c, r).
Proof. unfold give. destruct (has c g); [auto|]. intros H. apply in_app_or in H. destruct H as [|[<-|[]]]; auto. Qed.

Lemma shut_told s e s' : NoDup order -> Kinds s -> Sync s -> Prefix s -> Ordered s ->
  (forall a c, l_end (s_listeners s a) = Some (ToldBy c) -> c < length (s_calls s) /\
    forall d, In d (accepted_broadcasts s) -> d < c -> In d (l_done (s_listeners s a))) -> tr s e s' ->
  (forall a c, l_end (s_listeners s' a) = Some (ToldBy c) -> c < length (s_calls s') /\
    forall d, In d (accepted_broadcasts s') -> d < c -> In d (l_done (s_listeners s' a))).
Proof.
  intros Hn K S P O B H z c0 Hz.
  assert (Told : forall a c, alive (s_listeners s a) = true -> (exists rest, l_queue (s_listeners s a) = AShutdown c :: rest) ->
     c < length (s_calls s) /\ forall d, In d (accepted_broadcasts s) -> d < c -> In d (l_done (s_listeners s a))).
  { intros a c Hl [rest Hq]. destruct (S a Hl) as (pre & Hp & E). rewrite Hq in E. destruct pre as [|m pre]; [|inversion E; subst; inversion Hp; subst; contradiction].
    assert (W : exists rest', s_control s = ShuttingDown c (a :: rest') true /\ rest = []).
    { unfold tail_for in E. cbn in E. destruct (s_control s) as [| |c1 [|[b0 [|? ?]] ?] b [| |]|c1 [|x l] []|]; cbn in E; try discriminate;
      match type of E with context [if ?t then _ else _] => destruct t eqn:Eb; [|discriminate] end; [discriminate|].
      apply Nat.eqb_eq in Eb. inversion E; subst. eauto. }
    destruct W as (rest' & Ek & ->). split.
    - pose proof (K_ctl order s K) as C. rewrite Ek in C. cbn in C. apply nth_error_Some. destruct C; congruence.
    - intros d Hd Hlt. assert (Ha : In a order).
      { destruct (in_dec Nat.eq_dec a order) as [|Hc]; [assumption|]. rewrite (K_out order s K) in Hl by exact Hc. discriminate. }
      destruct (P a Ha) as [y [Ey F]]. rewrite F in Ey; [|exact Hl|rewrite Ek; discriminate]. rewrite Ey, Ek, Hq in Hd. cbn [ccalls qcalls flat_map app] in Hd.
      apply in_app_or in Hd. destruct Hd as [Hd|Hd]; [exact Hd|]. exfalso.
      unfold Ordered in O. rewrite Ek in O. cbn in O. inversion O; subst. rewrite Forall_forall in H3.
      unfold scalls in Hd. apply in_map_iff in Hd. destruct Hd as [p [<- Hp']]. apply filter_In in Hp'. specialize (H3 (fst p) (in_map fst _ _ (proj1 Hp'))). lia. }
  pose proof (K_bad order s K) as K8.
  assert (Same : s_listeners s' z = s_listeners s z -> s_calls s' = s_calls s -> s_refused s' = s_refused s -> s_panicked s' = s_panicked s ->
    c0 < length (s_calls s') /\ forall d, In d (accepted_broadcasts s') -> d < c0 -> In d (l_done (s_listeners s' z))).
  { intros E1 E2 E3 E4. rewrite acc_eq, E1, E2, E3, E4, <- acc_eq. apply B. rewrite E1 in Hz. exact Hz. }
  destruct H; fields; try (apply Same; reflexivity).
  - destruct (B z c0 Hz) as [B1 B2]. split; [rewrite app_length; lia|]. rewrite acc_eq; fields. rewrite (acc_bad cs rf pn x) by auto. exact B2.
  - destruct (B z c0 Hz) as [B1 B2]. split; [rewrite app_length; lia|]. rewrite acc_eq; fields. rewrite (acc_bad cs rf pn x) by auto. exact B2.
  - destruct (B z c0 Hz) as [B1 B2]. split; [rewrite app_length; lia|]. rewrite acc_eq; fields. rewrite !Forall_app in K8. destruct K8 as (A1 & A2 & A3).
    rewrite acc_snoc by assumption. intros d Hd Hlt. apply in_app_or in Hd. destruct Hd as [Hd|Hd]; [apply B2; assumption|]. destruct (is_broadcast x); [|destruct Hd]. destruct Hd as [<-|[]]. lia.
  - on_set z a; [|apply Same; [|reflexivity|reflexivity|reflexivity]; fields; rewrite ?set_other by assumption; reflexivity].
    lfields. unfold alive in H. rewrite Hz in H. discriminate.
  - on_set z a; [|apply Same; [|reflexivity|reflexivity|reflexivity]; fields; rewrite ?set_other by assumption; reflexivity].
    lfields. unfold alive in H. rewrite Hz in H. discriminate.
  - on_set z a; [|apply Same; [|reflexivity|reflexivity|reflexivity]; fields; rewrite ?set_other by assumption; reflexivity].
    lfields. unfold alive in H. rewrite Hz in H. discriminate.
  - on_set z a; [|apply Same; [|reflexivity|reflexivity|reflexivity]; fields; rewrite ?set_other by assumption; reflexivity].
    lfields. discriminate.
  - on_set z a; [|apply Same; [|reflexivity|reflexivity|reflexivity]; fields; rewrite ?set_other by assumption; reflexivity].
    lfields. unfold alive in H. rewrite Hz in H. discriminate.
  - on_set z a; [|apply Same; [|reflexivity|reflexivity|reflexivity]; fields; rewrite ?set_other by assumption; reflexivity].
    lfields. unfold alive in H. rewrite Hz in H. discriminate.
  - on_set z a; [|apply Same; [|reflexivity|reflexivity|reflexivity]; fields; rewrite ?set_other by assumption; reflexivity].
    lfields. unfold alive in H. rewrite Hz in H. discriminate.
  - on_set z a; [|apply Same; [|reflexivity|reflexivity|reflexivity]; fields; rewrite ?set_other by assumption; reflexivity].
    lfields. inversion Hz; subst. apply (Told a c0); eauto.
  - on_set z a; [|apply Same; [|reflexivity|reflexivity|reflexivity]; fields; rewrite ?set_other by assumption; reflexivity].
    lfields. discriminate.
Qed.

Lemma shut_tr s e s' : NoDup order -> Kinds s -> Sync s -> Prefix s -> Ordered s -> Shut s -> tr s e s' -> Shut s'.
Proof.
  intros Hn K S P O (A & C & B) H.
  split; [|split; [|exact (shut_told s e s' Hn K S P O B H)]].
  - pose proof (fun a D => dead_tr s e s' a D H) as Dead.
    assert (Keep : (forall c, In (c, ShutDone) (s_replies s') -> In (c, ShutDone) (s_replies s)) -> (s_control s = Ended -> s_control s' = Ended) ->
       forall c, In (c, ShutDone) (s_replies s') -> s_control s' = Ended /\ (forall a, In a order -> alive (s_listeners s' a) = false)).
    { intros R1 R2 c Hc. destruct (A c (R1 c Hc)) as [A1 A2]. split; [auto|]. intros a Ha. rewrite Dead; auto. }
    destruct H; try (apply Keep; fields; [let Hc := fresh in intros ? Hc; first [exact Hc|apply in_give in Hc; destruct Hc as [Hc|Hc]; [exact Hc|discriminate Hc]]|
      let Ek := fresh in intros Ek; first [exact Ek|discriminate Ek|reflexivity]]).
    + fields. intros c1 Hc. split; [reflexivity|]. destruct C as (pre & Eo & D). rewrite app_nil_r in Eo. subst pre. exact D.
    + fields. apply Keep; [auto|]. intros ->. destruct H1; reflexivity.
  - pose proof (fun a D => dead_tr s e s' a D H) as Dead.
    destruct H; fields; auto;
      try (destruct k; auto; destruct C as (pre & Eo & D); exists pre; split; [exact Eo|]; intros z Hz; rewrite Dead; auto; fail).
    + destruct x; cbn; auto. exists []. split; [reflexivity|]. intros a [].
    + destruct C as (pre & Eo & D). exists (pre ++ [a]). split; [rewrite <- app_assoc; exact Eo|]. intros z Hz. apply in_app_or in Hz. destruct Hz as [Hz|[<-|[]]]; auto.
    + destruct C as (pre & Eo & D). exists pre. split; [exact Eo|]. intros z Hz. rewrite Dead; auto.
    + destruct k as [| |c todo b [| |]|c todo w|]; subst; auto. destruct C as (pre & Eo & D). exists pre. split; [exact Eo|]. intros z Hz. rewrite Dead; auto.
Qed.
Record Base (s : state) : Prop := {
  B_kinds : Kinds s; B_prefix : Prefix s; B_sync : Sync s; B_ordered : Ordered s }.
Lemma base_init : Base (init order).
Proof. split; [apply kinds_init|apply prefix_init|apply sync_init|constructor]. Qed.
Lemma base_tr s e s' : NoDup order -> Base s -> tr s e s' -> Base s'.
Proof. intros Hn [A B C D] H. split; [eapply kinds_tr|eapply prefix_tr|eapply sync_tr|eapply ordered_tr]; eauto. Qed.
Lemma base s : NoDup order -> reachable s -> Base s.
Proof. intros Hn. apply (inv_reachable v order buffer Base base_init). intros. eapply base_tr; eauto. Qed.
Lemma with_base (I : state -> Prop) : NoDup order -> I (init order) ->
  (forall s e s', Base s -> I s -> tr s e s' -> I s') -> forall s, reachable s -> I s.
Proof.
  intros Hn H0 Hs s Hr. assert (G : Base s /\ I s); [|apply G]. revert s Hr.
  apply (inv_reachable v order buffer (fun s => Base s /\ I s)); [split; [apply base_init|exact H0]|].
  intros s e s' [A B] T. split; [eapply base_tr; eauto|eapply Hs; eauto].
Qed.
Lemma with_base_runs (I : state -> Prop) : NoDup order ->
  (forall s e s', Base s -> I s -> tr s e s' -> I s') -> forall s es s', reachable s -> runs v order buffer s es s' -> I s -> I s'.
Proof.
  intros Hn Hs s es s' Hr H Hi.
  assert (G : Base s' /\ I s'); [|apply G]. apply (inv_runs v order buffer (fun s => Base s /\ I s)) with (2 := H).
  - intros s0 e s1 [A B] T. split; [eapply base_tr; eauto|eapply Hs; eauto].
  - split; [apply base; assumption|exact Hi].
Qed.
Lemma shut s : NoDup order -> reachable s -> Shut s.
Proof.
  intros Hn. apply with_base; [exact Hn| |].
  - split; [intros c []|split; [exact I|]]. intros a c E. cbn in E. destruct (has a order); discriminate.
  - intros s0 e s1 [A B C D] I0 T. eapply shut_tr; eauto.
Qed.
(* ---- what ends the supervisor and its listeners ---- *)
Record Told (s : state) : Prop := {
  To_kinds : Kinds s;
  To_end : s_control s = Ended -> s_dropped s = true \/ In CShutdown (s_calls s) \/ forall a, In a order -> l_end (s_listeners s a) <> None;
  To_closed : forall a, In a order -> l_end (s_listeners s a) = Some ChannelClosed -> s_control s = Ended }.
Lemma told_init : Told (init order).
Proof.
  split; [apply kinds_init|discriminate|]. intros a Ha. cbn. apply has_In in Ha. rewrite Ha. discriminate.
Qed.
Lemma told_tr s e s' : Told s -> tr s e s' -> Told s'.
Proof.
  intros [K E C] H. pose proof (kinds_tr v order buffer s e s' K H) as K'. split; [exact K'| |].
  - destruct H; fields; intros Hk; try discriminate; subst;
      try (specialize (E eq_refl));
      try (destruct E as [E|[E|E]]; [left; exact E|right; left; rewrite ?in_app_iff; tauto|
             right; right; intros b Hb; first [exact (E b Hb)|on_set b a; cbn; first [discriminate|exact (E _ Hb)]]]).
    + left; reflexivity.
    + left; reflexivity.
    + destruct x; discriminate.
    + right; left. destruct (K_ctl _ _ K) as [Hc _]. eapply nth_error_In; exact Hc.
    + assert (Hk : k = Ended) by (destruct k as [| |? ? ? []| |]; congruence). destruct (E Hk) as [E1|[E1|E1]]; [auto|auto|].
      right; right. intros b Hb. on_set b a; cbn; [exact (E1 a Hb)|exact (E1 b Hb)].
    + right; right. intros b Hb Hn. match goal with G : forall a, In a order -> alive _ = false |- _ => specialize (G b Hb); unfold alive in G; rewrite Hn in G; discriminate end.
  - destruct H; fields; intros z Hz Hc; try reflexivity;
      try (on_set z a; cbn in Hc; try discriminate);
      specialize (C _ Hz Hc); try discriminate; try congruence.
    all: subst; reflexivity.
Qed.
Lemma told s : reachable s -> Told s.
Proof. apply inv_reachable; [apply told_init|apply told_tr]. Qed.
End P.
