(* Proofs about the supervisors: what a listener handled, what a caller got. *)
From Coq Require Import List Bool Arith Lia Permutation Sorted.
From Verif Require Import SvModel SvSpec SvProofs.
Import ListNotations.

Section P.
Variable v : service.
Variable order : list nat.
Variable buffer : nat.
Notation step := (step v order buffer).
Notation reachable := (reachable v order buffer).
Notation tr := (tr v order buffer).

Ltac fields := cbn [s_queue s_control s_listeners s_replies s_calls s_refused s_panicked s_gone s_dropped] in *.
Ltac lfields := cbn [l_end l_queue l_subs l_next l_done push end_listener alive] in *.
Ltac on_set b a := destruct (Nat.eq_dec b a) as [->|]; [rewrite ?set_same in *|rewrite ?set_other in * by assumption].

(* ---- the kinds agree ---- *)
Definition cmd_ok (cs : list call) (m : command) : Prop :=
  match m with
  | ASubscribe c => nth_error cs c = Some CSubscribe
  | AQuery c => nth_error cs c = Some CQuery
  | AUnsubscribe _ => True
  | AShutdown c => nth_error cs c = Some CShutdown
  end.
Definition ctl_ok (cs : list call) (k : control) : Prop :=
  match k with
  | Broadcasting c sub todo => nth_error cs c = Some (if sub then CSubscribe else CQuery) /\ exists pre, order = pre ++ todo
  | Unsubscribing c todo _ _ => (exists subs, nth_error cs c = Some (CUnsubscribe subs)) /\ exists pre, order = pre ++ map fst todo
  | ShuttingDown c todo _ => nth_error cs c = Some CShutdown /\ exists pre, order = pre ++ todo
  | _ => True
  end.
Definition reply_ok (cs : list call) (p : nat * reply) : Prop :=
  exists k, nth_error cs (fst p) = Some k /\ right_kind k (snd p).
Record Kinds (s : state) : Prop := {
  K_queue : Forall (fun p => nth_error (s_calls s) (fst p) = Some (snd p)) (s_queue s);
  K_ctl : ctl_ok (s_calls s) (s_control s);
  K_cmds : forall a, Forall (cmd_ok (s_calls s)) (l_queue (s_listeners s a));
  K_replies : Forall (reply_ok (s_calls s)) (s_replies s);
  K_dead : forall a, alive (s_listeners s a) = false -> l_queue (s_listeners s a) = [];
  K_out : forall a, ~ In a order -> alive (s_listeners s a) = false;
  K_ended : s_control s = Ended -> s_queue s = [];
  K_bad : Forall (fun c => c < length (s_calls s)) (s_refused s ++ s_panicked s ++ s_gone s) }.

Lemma cmd_ok_snoc cs x m : cmd_ok cs m -> cmd_ok (cs ++ [x]) m.
Proof. destruct m; cbn; auto using nth_snoc_old. Qed.
Lemma ctl_ok_snoc cs x k : ctl_ok cs k -> ctl_ok (cs ++ [x]) k.
Proof. destruct k; cbn; auto; intros [H1 H2]; (split; [|exact H2]); try (apply nth_snoc_old; exact H1). destruct H1 as [subs H1]. exists subs. apply nth_snoc_old; exact H1. Qed.
Lemma reply_ok_snoc cs x p : reply_ok cs p -> reply_ok (cs ++ [x]) p.
Proof. intros [k [H1 H2]]. exists k. split; [apply nth_snoc_old; exact H1|exact H2]. Qed.
Lemma lt_snoc {A} (cs : list A) x l : Forall (fun c => c < length cs) l -> Forall (fun c => c < length (cs ++ [x])) l.
Proof. apply Forall_impl. intros c Hc. rewrite app_length. cbn. lia. Qed.
Lemma suffix_tl (a : nat) rest : (exists pre, order = pre ++ a :: rest) -> exists pre, order = pre ++ rest.
Proof. intros [pre E]. exists (pre ++ [a]). rewrite <- app_assoc. exact E. Qed.
Lemma give_ok cs g R c r : Forall (reply_ok cs) R -> reply_ok cs (c, r) -> Forall (reply_ok cs) (give g R c r).
Proof. intros H1 H2. unfold give. destruct (has c g); [exact H1|]. apply Forall_app. auto. Qed.

Lemma kinds_init : Kinds (init order).
Proof.
  split; cbn; auto.
  - intros a Ha. unfold alive, fresh_listener. cbn [l_end]. destruct (has a order) eqn:E; [|reflexivity]. apply has_In in E. contradiction.
Qed.

Lemma kinds_tr s e s' : Kinds s -> tr s e s' -> Kinds s'.
Proof.
  intros K H. destruct K as [K1 K2 K3 K4 K5 K6 K7 K8]. destruct H; fields.
  - (* panic *) split; fields; auto using ctl_ok_snoc.
    + eapply Forall_impl; [|exact K1]. cbn. intros p. apply nth_snoc_old.
    + intros a. eapply Forall_impl; [|apply K3]. intros m. apply cmd_ok_snoc.
    + eapply Forall_impl; [|exact K4]. intros p. apply reply_ok_snoc.
    + apply (lt_snoc _ x) in K8. rewrite !Forall_app in *. destruct K8 as (A & B & C). split; [|split]; auto.
      constructor; [|exact B]. rewrite app_length. cbn. lia.
  - (* refused *) split; fields; auto using ctl_ok_snoc.
    + eapply Forall_impl; [|exact K1]. cbn. intros p. apply nth_snoc_old.
    + intros a. eapply Forall_impl; [|apply K3]. intros m. apply cmd_ok_snoc.
    + eapply Forall_impl; [|exact K4]. intros p. apply reply_ok_snoc.
    + apply (lt_snoc _ x) in K8. rewrite !Forall_app in *. destruct K8 as (A & B & C). split; [|split]; auto.
      constructor; [|exact A]. rewrite app_length. cbn. lia.
  - (* queued *) split; fields; auto using ctl_ok_snoc.
    + apply Forall_app. split; [|constructor; [cbn; apply nth_snoc_new|constructor]].
      eapply Forall_impl; [|exact K1]. cbn. intros p. apply nth_snoc_old.
    + intros a. eapply Forall_impl; [|apply K3]. intros m. apply cmd_ok_snoc.
    + eapply Forall_impl; [|exact K4]. intros p. apply reply_ok_snoc.
    + intros E. contradiction.
    + apply lt_snoc. exact K8.
  - (* gave up *) split; fields; auto. rewrite !Forall_app in *. destruct K8 as (A & B & C). split; [|split]; auto.
  - split; fields; auto.
  - split; fields; auto.
  - (* take *) inversion K1; subst. split; fields; auto.
    + destruct x; cbn in *; try (split; [assumption|exists []; reflexivity]).
      split; [eauto|]. exists []. rewrite map_map. cbn. symmetry. apply map_id.
    + destruct x; discriminate.
  - split; fields; auto; try discriminate. exact I.
  - destruct K2 as [A B]. split; fields; auto; try discriminate. split; [exact A|eapply suffix_tl; eauto].
  - destruct K2 as [A B]. split; fields; auto; try discriminate.
    + split; [exact A|eapply suffix_tl; eauto].
    + intros b. on_set b a; auto. lfields. apply Forall_app. split; [apply K3|]. constructor; [|constructor]. destruct sub; exact A.
    + intros b. on_set b a; auto. unfold alive in *. lfields. intros Hd. destruct (l_end (L a)); discriminate.
    + intros b Hb. on_set b a; auto. unfold alive in *. lfields. apply K6. exact Hb.
  - split; fields; auto; try discriminate. exact I.
  - destruct K2 as [A B]. split; fields; auto; try discriminate.
    + split; [exact A|]. eapply suffix_tl. exact B.
    + destruct A as [subs A]. apply give_ok; [exact K4|]. exists (CUnsubscribe subs). split; [exact A|exact I].
  - destruct K2 as [A B]. split; fields; auto; try discriminate; split; assumption.
  - destruct K2 as [A B]. split; fields; auto; try discriminate.
    + split; [exact A|exact B].
    + intros b0. on_set b0 a; auto. lfields. apply Forall_app. split; [apply K3|]. constructor; [exact I|constructor].
    + intros b0. on_set b0 a; auto. unfold alive in *. lfields. intros Hd. destruct (l_end (L a)); discriminate.
    + intros b0 Hb. on_set b0 a; auto. unfold alive in *. lfields. apply K6. exact Hb.
  - destruct K2 as [A B]. split; fields; auto; try discriminate; split; assumption.
  - destruct K2 as [A B]. split; fields; auto; try discriminate; split; assumption.
  - destruct K2 as [A B]. split; fields; auto.
    + exact I.
    + apply give_ok; [exact K4|]. exists CShutdown. split; [exact A|exact I].
  - destruct K2 as [A B]. split; fields; auto; try discriminate. split; [exact A|eapply suffix_tl; eauto].
  - destruct K2 as [A B]. split; fields; auto; try discriminate.
    + split; assumption.
    + intros b0. on_set b0 a; auto. lfields. apply Forall_app. split; [apply K3|]. constructor; [exact A|constructor].
    + intros b0. on_set b0 a; auto. unfold alive in *. lfields. intros Hd. destruct (l_end (L a)); discriminate.
    + intros b0 Hb. on_set b0 a; auto. unfold alive in *. lfields. apply K6. exact Hb.
  - split; fields; auto.
    + intros b0. on_set b0 a; auto. constructor.
    + intros b0. on_set b0 a; auto.
    + intros b0 Hb. on_set b0 a; auto.
  - pose proof (K3 a) as Ka. rewrite H0 in Ka. inversion Ka; subst. split; fields; auto.
    + intros b0. on_set b0 a; auto.
    + apply give_ok; [exact K4|]. exists CSubscribe. split; [assumption|exact I].
    + intros b0. on_set b0 a; auto. unfold alive in *. lfields. intros Hd. destruct (l_end (L a)); discriminate.
    + intros b0 Hb. on_set b0 a; auto. unfold alive in *. lfields. apply K6. exact Hb.
  - pose proof (K3 a) as Ka. rewrite H0 in Ka. inversion Ka; subst. split; fields; auto.
    + intros b0. on_set b0 a; auto.
    + apply give_ok; [exact K4|]. exists CQuery. split; [assumption|exact I].
    + intros b0. on_set b0 a; auto. unfold alive in *. lfields. intros Hd. destruct (l_end (L a)); discriminate.
    + intros b0 Hb. on_set b0 a; auto. unfold alive in *. lfields. apply K6. exact Hb.
  - pose proof (K3 a) as Ka. rewrite H0 in Ka. inversion Ka; subst. split; fields; auto.
    + destruct k as [| |c todo b [| |]| |]; subst; auto.
    + intros b0. on_set b0 a; auto.
    + intros b0. on_set b0 a; auto. unfold alive in *. lfields. intros Hd. destruct (l_end (L a)); discriminate.
    + intros b0 Hb. on_set b0 a; auto. unfold alive in *. lfields. apply K6. exact Hb.
    + intros E. apply K7. destruct k as [| |c todo b [| |]| |]; subst; auto; discriminate.
  - split; fields; auto.
    + intros b0. on_set b0 a; auto. constructor.
    + intros b0. on_set b0 a; auto.
    + intros b0 Hb. on_set b0 a; auto.
  - split; fields; auto.
    + intros b0. on_set b0 a; auto. constructor.
    + intros b0. on_set b0 a; auto.
    + intros b0 Hb. on_set b0 a; auto.
  - split; fields; auto. exact I.
Qed.
Lemma kinds s : reachable s -> Kinds s.
Proof. apply (inv_reachable v order buffer Kinds kinds_init). apply kinds_tr. Qed.

(* ---- what a listener handled is a prefix of the accepted calls ---- *)
Definition qcalls (l : list command) : list nat :=
  flat_map (fun m => match m with ASubscribe c => [c] | AQuery c => [c] | _ => [] end) l.
Definition ccalls (k : control) (a : nat) : list nat :=
  match k with Broadcasting c _ todo => if has a todo then [c] else [] | _ => [] end.
Definition scalls (q : list (nat * call)) : list nat :=
  map fst (filter (fun p => is_broadcast (snd p)) q).
Definition Prefix (s : state) : Prop := forall a, In a order ->
  let l := s_listeners s a in
  exists x, accepted_broadcasts s = l_done l ++ qcalls (l_queue l) ++ x /\
    (alive l = true -> s_control s <> Ended -> x = ccalls (s_control s) a ++ scalls (s_queue s)).

Lemma qcalls_app l m : qcalls (l ++ m) = qcalls l ++ qcalls m.
Proof. apply flat_map_app. Qed.
Lemma scalls_app q r : scalls (q ++ r) = scalls q ++ scalls r.
Proof. unfold scalls. rewrite filter_app, map_app. reflexivity. Qed.

(* a state seen through its calls *)
Definition acc (cs : list call) (rf pn : list nat) : list nat :=
  filter (fun c => match nth_error cs c with Some k => is_broadcast k | None => false end
                   && negb (has c rf) && negb (has c pn)) (seq 0 (length cs)).
Lemma acc_eq s : accepted_broadcasts s = acc (s_calls s) (s_refused s) (s_panicked s).
Proof. reflexivity. Qed.
Lemma acc_snoc cs rf pn x : Forall (fun c => c < length cs) rf -> Forall (fun c => c < length cs) pn ->
  acc (cs ++ [x]) rf pn = acc cs rf pn ++ (if is_broadcast x then [length cs] else []).
Proof.
  intros Hr Hp. unfold acc. rewrite app_length. cbn [length]. rewrite Nat.add_1_r, seq_S, filter_app. cbn [plus filter].
  f_equal.
  - apply filter_ext_in. intros c Hc. apply in_seq in Hc. rewrite nth_error_app1 by lia. reflexivity.
  - rewrite nth_snoc_new. rewrite Forall_forall in Hr, Hp.
    destruct (has (length cs) rf) eqn:E1; [apply has_In in E1; apply Hr in E1; lia|].
    destruct (has (length cs) pn) eqn:E2; [apply has_In in E2; apply Hp in E2; lia|].
    cbn [negb]. rewrite !andb_true_r. reflexivity.
Qed.
Lemma acc_bad cs rf pn x rf' pn' : (rf' = length cs :: rf /\ pn' = pn) \/ (rf' = rf /\ pn' = length cs :: pn) ->
  acc (cs ++ [x]) rf' pn' = acc cs rf pn.
Proof.
  intros H. unfold acc. rewrite app_length. cbn [length]. rewrite Nat.add_1_r, seq_S, filter_app. cbn [plus filter].
  assert (E : match nth_error (cs ++ [x]) (length cs) with Some k => is_broadcast k | None => false end
              && negb (has (length cs) rf') && negb (has (length cs) pn') = false).
  { assert (Ehh : forall l, has (length cs) (length cs :: l) = true) by (intros l; apply has_In; left; reflexivity).
    destruct H as [[-> ->]|[-> ->]]; rewrite Ehh; cbn [negb]; rewrite ?andb_false_r; reflexivity. }
  rewrite E, app_nil_r. apply filter_ext_in. intros c Hc. apply in_seq in Hc. rewrite nth_error_app1 by lia.
  assert (Hn : c =? length cs = false) by (apply Nat.eqb_neq; lia).
  destruct H as [[-> ->]|[-> ->]]; unfold has; cbn [existsb]; rewrite Hn; reflexivity.
Qed.

Lemma prefix_init : Prefix (init order).
Proof. intros a Ha. exists []. split; [reflexivity|]. intros _ _. reflexivity. Qed.

Lemma suffix_nodup (pre : list nat) (a : nat) rest : NoDup order -> order = pre ++ a :: rest -> ~ In a rest.
Proof. intros Hn ->. apply NoDup_remove_2 in Hn. intros H. apply Hn. apply in_or_app. auto. Qed.

Lemma prefix_tr (Hn : NoDup order) s e s' : Kinds s -> Prefix s -> tr s e s' -> Prefix s'.
Proof.
  intros K P H. pose proof (K_queue s K) as K1. pose proof (K_ctl s K) as K2. pose proof (K_bad s K) as K8.
  unfold Prefix in *. setoid_rewrite acc_eq. setoid_rewrite acc_eq in P.
  destruct H; fields; intros z Hz; pose proof (P z Hz) as [y [E F]].
  - exists y. rewrite (acc_bad cs rf pn x rf (length cs :: pn)) by auto. auto.
  - exists y. rewrite (acc_bad cs rf pn x (length cs :: rf) pn) by auto. auto.
  - rewrite !Forall_app in K8. destruct K8 as (A & B & C). rewrite acc_snoc by assumption.
    exists (y ++ (if is_broadcast x then [length cs] else [])). rewrite E. split; [rewrite !app_assoc; reflexivity|].
    intros Hl Hk. rewrite (F Hl Hk), scalls_app, <- app_assoc. f_equal. f_equal. unfold scalls. cbn [filter snd].
    destruct (is_broadcast x); reflexivity.
  - exists y. auto.
  - exists y. auto.
  - exists y. split; [exact E|]. intros _ Hk. congruence.
  - (* take *) exists y. split; [exact E|]. intros Hl _. rewrite F by (auto; discriminate). cbn [ccalls app].
    unfold scalls. cbn [filter snd fst]. apply has_In in Hz. destruct x; cbn [is_broadcast taken ccalls map fst]; rewrite ?Hz; reflexivity.
  - exists y. split; [exact E|]. intros Hl _. rewrite F by (auto; discriminate). reflexivity.
  - exists y. split; [exact E|]. intros Hl _. rewrite F by (auto; discriminate). cbn [ccalls]. unfold has. cbn [existsb].
    destruct (z =? a) eqn:Ez; [|reflexivity]. apply Nat.eqb_eq in Ez. subst. congruence.
  - (* send *) destruct K2 as [_ [pre Eo]]. on_set z a.
    + lfields. rewrite qcalls_app. assert (Eb : qcalls [bcmd sub c] = [c]) by (destruct sub; reflexivity). rewrite Eb.
      rewrite F in E by (auto; discriminate). cbn [ccalls] in E. unfold has in E. cbn [existsb] in E. rewrite Nat.eqb_refl in E. cbn [orb] in E.
      exists (scalls q). split; [rewrite E, <- !app_assoc; reflexivity|]. intros _ _. cbn [ccalls].
      destruct (has a rest) eqn:Er; [|reflexivity]. apply has_In in Er. exfalso. eapply suffix_nodup; eauto.
    + exists y. split; [exact E|]. intros Hl _. rewrite F by (auto; discriminate). cbn [ccalls]. unfold has. cbn [existsb].
      assert (Ez : z =? a = false) by (apply Nat.eqb_neq; assumption). rewrite Ez. reflexivity.
  - exists y. split; [exact E|]. intros Hl _. rewrite F by (auto; discriminate). reflexivity.
  - exists y. split; [exact E|]. intros Hl _. rewrite F by (auto; discriminate). reflexivity.
  - exists y. split; [exact E|]. intros Hl _. rewrite F by (auto; discriminate). reflexivity.
  - on_set z a; (exists y; split; [|intros Hl _; rewrite F by (auto; discriminate); reflexivity]).
    + lfields. rewrite qcalls_app, app_nil_r. exact E.
    + exact E.
  - exists y. split; [exact E|]. intros Hl _. rewrite F by (auto; discriminate). reflexivity.
  - exists y. split; [exact E|]. intros Hl _. rewrite F by (auto; discriminate). reflexivity.
  - exists y. split; [exact E|]. intros _ Hk. congruence.
  - exists y. split; [exact E|]. intros Hl _. rewrite F by (auto; discriminate). reflexivity.
  - on_set z a; (exists y; split; [|intros Hl _; rewrite F by (auto; discriminate); reflexivity]).
    + lfields. rewrite qcalls_app, app_nil_r. exact E.
    + exact E.
  - on_set z a; [|exists y; auto]. exists y. lfields. split; [|discriminate]. rewrite E, H0. reflexivity.
  - on_set z a; [|exists y; auto]. exists y. lfields. rewrite E, H0. cbn [qcalls flat_map]. split; [rewrite <- !app_assoc; reflexivity|auto].
  - on_set z a; [|exists y; auto]. exists y. lfields. rewrite E, H0. cbn [qcalls flat_map]. split; [rewrite <- !app_assoc; reflexivity|auto].
  - assert (Ek : k' <> Ended -> y = ccalls k' z ++ scalls q \/ alive (L z) <> true).
    { intros Hk. destruct (alive (L z)) eqn:El; [|auto]. left. rewrite F; auto.
      - destruct k as [| |c todo b [| |]| |]; subst; reflexivity.
      - destruct k as [| |c todo b [| |]| |]; subst; congruence. }
    on_set z a.
    + exists y. lfields. rewrite E, H0. cbn [qcalls flat_map]. split; [reflexivity|]. intros _ Hk. destruct (Ek Hk); [assumption|contradiction].
    + exists y. split; [exact E|]. intros Hl Hk. destruct (Ek Hk); [assumption|contradiction].
  - on_set z a; [|exists y; auto]. exists (qcalls (l_queue (L a)) ++ y). lfields. split; [exact E|discriminate].
  - on_set z a; [|exists y; auto]. exists (qcalls (l_queue (L a)) ++ y). lfields. split; [exact E|discriminate].
  - exists y. split; [exact E|]. intros _ Hk. congruence.
Qed.
Lemma prefix (Hn : NoDup order) s : reachable s -> Prefix s.
Proof.
  intros H. assert (G : Kinds s /\ Prefix s); [|apply G]. revert s H.
  apply (inv_reachable v order buffer (fun s => Kinds s /\ Prefix s)); [split; [apply kinds_init|apply prefix_init]|].
  intros s e s' [A B] T. split; [eapply kinds_tr; eauto|eapply prefix_tr; eauto].
Qed.

(* ---- the answers are those of the handled calls ---- *)
Definition from (a : nat) (p : nat * reply) : list nat :=
  match snd p with
  | Subscribed b _ => if b =? a then [fst p] else []
  | Answered b => if b =? a then [fst p] else []
  | _ => []
  end.
Definition ungone (g : list nat) (l : list nat) : list nat := filter (fun c => negb (has c g)) l.
Definition Answers (s : state) : Prop := forall a,
  ungone (s_gone s) (flat_map (from a) (s_replies s)) = ungone (s_gone s) (l_done (s_listeners s a)).

Lemma ungone_cons g c l m : ungone g l = ungone g m -> ungone (c :: g) l = ungone (c :: g) m.
Proof.
  assert (G : forall l, ungone (c :: g) l = filter (fun x => negb (x =? c)) (ungone g l)).
  { clear. unfold ungone. induction l as [|x l IH]; [reflexivity|]. cbn [filter]. unfold has at 1. cbn [existsb].
    destruct (x =? c) eqn:E; cbn [orb negb]; fold (has x g); destruct (has x g) eqn:E2; cbn [negb filter]; rewrite ?E; cbn [negb]; rewrite IH; reflexivity. }
  intros E. rewrite !G, E. reflexivity.
Qed.
Lemma ungone_app g l m : ungone g (l ++ m) = ungone g l ++ ungone g m.
Proof. apply filter_app. Qed.
Lemma flat_give a g R c r : flat_map (from a) (give g R c r) = flat_map (from a) R ++ (if has c g then [] else from a (c, r)).
Proof. unfold give. destruct (has c g); [rewrite app_nil_r; reflexivity|]. rewrite flat_map_app. cbn [flat_map]. rewrite app_nil_r. reflexivity. Qed.

Lemma answers_tr s e s' : Answers s -> tr s e s' -> Answers s'.
Proof.
  intros A H. unfold Answers in *. destruct H; fields; intros z; pose proof (A z) as E; auto using ungone_cons;
    try (rewrite flat_give; destruct (has c gn); rewrite app_nil_r; exact E);
    try (on_set z a; [lfields|]; exact E).
  - rewrite flat_give, ungone_app, E. on_set z a.
    + lfields. rewrite ungone_app. f_equal. unfold from. cbn [fst snd]. rewrite Nat.eqb_refl. unfold ungone. cbn [filter].
      destruct (has c gn) eqn:Eg; cbn [negb filter]; rewrite ?Eg; reflexivity.
    + unfold from. cbn [fst snd]. assert (Ez : a =? z = false) by (apply Nat.eqb_neq; auto). rewrite Ez. destruct (has c gn); cbn; rewrite app_nil_r; reflexivity.
  - rewrite flat_give, ungone_app, E. on_set z a.
    + lfields. rewrite ungone_app. f_equal. unfold from. cbn [fst snd]. rewrite Nat.eqb_refl. unfold ungone. cbn [filter].
      destruct (has c gn) eqn:Eg; cbn [negb filter]; rewrite ?Eg; reflexivity.
    + unfold from. cbn [fst snd]. assert (Ez : a =? z = false) by (apply Nat.eqb_neq; auto). rewrite Ez. destruct (has c gn); cbn; rewrite app_nil_r; reflexivity.
Qed.
Lemma answers s : reachable s -> Answers s.
Proof. apply (inv_reachable v order buffer Answers); [intros a; reflexivity|apply answers_tr]. Qed.

(* the number of answers of [a] to [c] *)
Lemma count_answers s c a : ~ In c (s_gone s) -> Answers s ->
  count_occ Nat.eq_dec (answerers (replies_to s c)) a = count_occ Nat.eq_dec (l_done (s_listeners s a)) c.
Proof.
  intros Hg A. specialize (A a).
  assert (G : forall l, count_occ Nat.eq_dec (ungone (s_gone s) l) c = count_occ Nat.eq_dec l c).
  { induction l as [|x l IH]; [reflexivity|]. unfold ungone in *. cbn [filter count_occ]. destruct (Nat.eq_dec x c) as [->|Hx].
    - apply has_nIn in Hg. rewrite Hg. cbn [negb count_occ]. destruct (Nat.eq_dec c c); [|contradiction]. rewrite IH. reflexivity.
    - destruct (negb (has x (s_gone s))); [cbn [count_occ]; destruct (Nat.eq_dec x c); [contradiction|]|]; exact IH. }
  rewrite <- (G (l_done (s_listeners s a))), <- A, G. clear. unfold replies_to.
  induction (s_replies s) as [|[d r] R IH]; [reflexivity|]. cbn [filter flat_map fst]. rewrite count_occ_app, <- IH.
  destruct (d =? c) eqn:Ed.
  - apply Nat.eqb_eq in Ed. subst. cbn [map answerers flat_map snd]. rewrite count_occ_app. f_equal.
    unfold from. destruct r as [b i|b|o|]; cbn [answerer snd fst count_occ]; try reflexivity;
    (destruct (Nat.eq_dec b a) as [->|Hb]; [rewrite Nat.eqb_refl; cbn [count_occ]; destruct (Nat.eq_dec c c); [reflexivity|contradiction]|apply Nat.eqb_neq in Hb; rewrite Hb; reflexivity]).
  - assert (E0 : count_occ Nat.eq_dec (from a (d, r)) c = 0).
    { apply Nat.eqb_neq in Ed. unfold from. destruct r as [b i|b|o|]; cbn [snd fst]; try reflexivity; (destruct (b =? a); [cbn [count_occ]; destruct (Nat.eq_dec d c); [contradiction|reflexivity]|reflexivity]). }
    rewrite E0. reflexivity.
Qed.
Lemma acc_nodup s : NoDup (accepted_broadcasts s).
Proof. apply NoDup_filter, seq_NoDup. Qed.
Lemma nodup_app_l {A} (l m : list A) : NoDup (l ++ m) -> NoDup l.
Proof. induction l as [|x l IH]; [constructor|]. cbn. intros H. inversion H; subst. constructor; [|auto]. intros Hx. apply H2. apply in_or_app. auto. Qed.
Lemma done_nodup s a : NoDup order -> reachable s -> In a order -> NoDup (l_done (s_listeners s a)).
Proof. intros Hn Hr Ha. destruct (prefix Hn s Hr a Ha) as [x [E _]]. pose proof (acc_nodup s) as N. rewrite E in N. exact (nodup_app_l _ _ N). Qed.

(* a listener outside never handles anything *)
Lemma done_out s : reachable s -> forall a, ~ In a order -> l_done (s_listeners s a) = [].
Proof.
  intros H. assert (G : Kinds s /\ (forall a, ~ In a order -> l_done (s_listeners s a) = [])); [|apply G]. revert s H.
  apply (inv_reachable v order buffer (fun s => Kinds s /\ forall a, ~ In a order -> l_done (s_listeners s a) = [])).
  { split; [apply kinds_init|reflexivity]. }
  intros s e s' [K D] T. split; [eapply kinds_tr; eauto|].
  pose proof (K_out s K) as Ko.
  destruct T; fields; intros z Hz; auto; on_set z a; lfields; auto; exfalso; specialize (Ko a Hz); congruence.
Qed.

Lemma answerers_nodup (Hn : NoDup order) s c : reachable s -> ~ In c (s_gone s) ->
  NoDup (answerers (replies_to s c)) /\ incl (answerers (replies_to s c)) order.
Proof.
  intros Hr Hg. pose proof (answers s Hr) as A. split.
  - apply (NoDup_count_occ Nat.eq_dec). intros a. rewrite count_answers by assumption.
    destruct (in_dec Nat.eq_dec a order) as [Ha|Ha].
    + apply NoDup_count_occ. apply done_nodup; assumption.
    + rewrite done_out by assumption. cbn. lia.
  - intros a Ha. destruct (in_dec Nat.eq_dec a order) as [|Hc]; [assumption|]. exfalso.
    apply (count_occ_In Nat.eq_dec) in Ha. rewrite count_answers, done_out in Ha by assumption. cbn in Ha. lia.
Qed.

Lemma replies_kind s c k : reachable s -> nth_error (s_calls s) c = Some k -> Forall (right_kind k) (replies_to s c).
Proof.
  intros Hr Hk. pose proof (K_replies s (kinds s Hr)) as F. unfold replies_to. apply Forall_forall. intros r Hi.
  apply in_map_iff in Hi. destruct Hi as [[d r'] [<- Hi]]. apply filter_In in Hi. destruct Hi as [Hi Ed]. cbn in Ed. apply Nat.eqb_eq in Ed. subst d.
  rewrite Forall_forall in F. destruct (F _ Hi) as [k' [E R]]. cbn in *. congruence.
Qed.

(* ---- pending ---- *)
Lemma carries_qcalls c q : existsb (carries c) q = has c (qcalls q).
Proof.
  induction q as [|m q IH]; [reflexivity|]. cbn [existsb]. rewrite IH. change (m :: q) with ([m] ++ q). rewrite qcalls_app. unfold has. rewrite existsb_app. f_equal.
  destruct m; cbn; rewrite ?orb_false_r; try reflexivity; apply Nat.eqb_sym.
Qed.
Lemma not_pending s c : pending order s c = false -> reachable s ->
  ~ In c (map fst (s_queue s)) /\ in_hand (s_control s) <> Some c /\ forall a, ~ In c (qcalls (l_queue (s_listeners s a))).
Proof.
  unfold pending. intros H Hr. apply orb_false_iff in H. destruct H as [H H3]. apply orb_false_iff in H. destruct H as [H1 H2].
  split; [apply has_nIn; exact H1|]. split.
  - destruct (in_hand (s_control s)); [|discriminate]. apply Nat.eqb_neq in H2. congruence.
  - intros a. destruct (in_dec Nat.eq_dec a order) as [Ha|Ha].
    + apply has_nIn. rewrite <- carries_qcalls. destruct (existsb (carries c) (l_queue (s_listeners s a))) eqn:E; [|reflexivity]. exfalso.
      assert (existsb (fun a => existsb (carries c) (l_queue (s_listeners s a))) order = true) by (apply existsb_exists; eauto). congruence.
    + rewrite (K_dead s (kinds s Hr)) by (apply (K_out s (kinds s Hr)); exact Ha). cbn. auto.
Qed.
Lemma pending_false s c : ~ In c (map fst (s_queue s)) -> in_hand (s_control s) <> Some c ->
  (forall a, In a order -> ~ In c (qcalls (l_queue (s_listeners s a)))) -> pending order s c = false.
Proof.
  intros H1 H2 H3. unfold pending. apply orb_false_iff. split; [apply orb_false_iff; split|].
  - apply has_nIn. exact H1.
  - destruct (in_hand (s_control s)) as [d|]; [|reflexivity]. apply Nat.eqb_neq. congruence.
  - destruct (existsb _ order) eqn:E; [|reflexivity]. apply existsb_exists in E. destruct E as [a [Ha Hb]]. rewrite carries_qcalls in Hb. apply has_In in Hb. exfalso. eapply H3; eauto.
Qed.

(* a completed call was handled by every listener that runs *)
Lemma complete (Hn : NoDup order) s c a : reachable s -> In c (accepted_broadcasts s) -> pending order s c = false ->
  s_control s <> Ended -> In a order -> l_end (s_listeners s a) = None -> In c (l_done (s_listeners s a)).
Proof.
  intros Hr Hc Hp Hk Ha Hl. destruct (not_pending s c Hp Hr) as (P1 & P2 & P3).
  destruct (prefix Hn s Hr a Ha) as [x [E F]]. rewrite F in E; [|unfold alive; rewrite Hl; reflexivity|exact Hk].
  rewrite E in Hc. repeat (apply in_app_or in Hc; destruct Hc as [Hc|Hc]).
  - exact Hc.
  - exfalso. eapply P3; eauto.
  - exfalso. apply P2. destruct (s_control s); cbn in *; try contradiction. destruct (has a todo); [|contradiction]. destruct Hc as [->|[]]. reflexivity.
  - exfalso. apply P1. unfold scalls in Hc. apply in_map_iff in Hc. destruct Hc as [p [<- Hp']]. apply filter_In in Hp'. apply in_map. tauto.
Qed.
Lemma complete_perm (Hn : NoDup order) s c : reachable s -> In c (accepted_broadcasts s) -> pending order s c = false ->
  s_control s <> Ended -> every_listener_runs order s -> ~ In c (s_gone s) ->
  Permutation (answerers (replies_to s c)) order.
Proof.
  intros Hr Hc Hp Hk Hl Hg. destruct (answerers_nodup Hn s c Hr Hg) as [N I].
  apply NoDup_Permutation; [exact N|exact Hn|]. intros a. split; [apply I|]. intros Ha.
  apply (count_occ_In Nat.eq_dec). rewrite count_answers by (auto using answers). apply count_occ_In. apply complete; auto.
Qed.
End P.
