(** * Proofs about the Kafka consumer *)

From Coq Require Import List Arith NArith Bool Lia.
From Verif Require Import KcModel KcSpec.
Import ListNotations.

Lemma nth_error_set_nth_eq : forall {A} (l : list A) i x y,
  nth_error l i = Some y -> nth_error (set_nth l i x) i = Some x.
Proof.
  induction l as [|a l IH]; intros [|i] x y H; cbn in *; try discriminate;
    [reflexivity|]. eapply IH; exact H.
Qed.

Lemma nth_error_set_nth_ne : forall {A} (l : list A) i j x,
  i <> j -> nth_error (set_nth l i x) j = nth_error l j.
Proof.
  induction l as [|a l IH]; intros [|i] [|j] x H; cbn in *; try reflexivity;
    try congruence. apply IH. congruence.
Qed.

Lemma length_set_nth : forall {A} (l : list A) i x,
  length (set_nth l i x) = length l.
Proof.
  induction l as [|a l IH]; intros [|i] x; cbn; auto.
Qed.

Lemma map_set_nth_same : forall {A B} (f : A -> B) (l : list A) i x y,
  nth_error l i = Some y -> f x = f y -> map f (set_nth l i x) = map f l.
Proof.
  induction l as [|a l IH]; intros [|i] x y H E; cbn in *; try discriminate.
  - inversion H; subst. congruence.
  - f_equal. eapply IH; eauto.
Qed.

Lemma Some_inj : forall {A} (x y : A), Some x = Some y -> x = y.
Proof. intros A x y H. congruence. Qed.

Section Proofs.
Variables Op Payload HState : Type.
Variable handle : HState -> Payload -> HState * option (list Op).
Notation state' := (state Op Payload HState).
Notation stp := (step handle).
Notation runs := (run handle).

(** ** Histories *)

Fixpoint hafter (h : HState) (xs : list (input Payload)) : HState :=
  match xs with
  | [] => h
  | Message (Some p) :: rest => hafter (fst (handle h p)) rest
  | _ :: rest => hafter h rest
  end.

Definition ops_of (h : HState) (x : input Payload) : list Op :=
  match x with
  | Message (Some p) =>
      match snd (handle h p) with Some ops => ops | None => [] end
  | _ => []
  end.

Definition rej_of (h : HState) (x : input Payload) : nat :=
  match x with
  | Message (Some p) =>
      match snd (handle h p) with Some ops => 0 | None => 1 end
  | _ => 0
  end.

Lemma operations_snoc : forall xs h x,
  operations handle h (xs ++ [x]) =
  operations handle h xs ++ ops_of (hafter h xs) x.
Proof.
  induction xs as [|y xs IH]; intros h x; cbn.
  - destruct x as [[p|]| | | |]; cbn; rewrite ?app_nil_r; reflexivity.
  - destruct y as [[p|]| | | |]; cbn; rewrite IH; try reflexivity.
    apply app_assoc.
Qed.

Lemma rejected_snoc : forall xs h x,
  rejected handle h (xs ++ [x]) =
  rejected handle h xs + rej_of (hafter h xs) x.
Proof.
  induction xs as [|y xs IH]; intros h x; cbn.
  - destruct x as [[p|]| | | |]; cbn; lia.
  - destruct y as [[p|]| | | |]; cbn; rewrite IH; lia.
Qed.

Lemma hafter_snoc : forall xs h x,
  hafter h (xs ++ [x]) =
  match x with
  | Message (Some p) => fst (handle (hafter h xs) p)
  | _ => hafter h xs
  end.
Proof.
  induction xs as [|y xs IH]; intros h x; cbn.
  - destruct x as [[p|]| | | |]; reflexivity.
  - destruct y as [[p|]| | | |]; cbn; rewrite IH; reflexivity.
Qed.

Lemma run_app : forall a b (s : state'),
  runs s (a ++ b) =
  match runs s a with Some s' => runs s' b | None => None end.
Proof.
  induction a as [|l a IH]; intros b s; cbn; [reflexivity|].
  destruct (stp s l); auto.
Qed.

Lemma yielded_app : forall (a b : list (label Payload)),
  yielded (a ++ b) = yielded a ++ yielded b.
Proof.
  induction a as [|l a IH]; intros b; cbn; [reflexivity|].
  destruct l; cbn; rewrite ?IH; reflexivity.
Qed.

(** A property kept by every step is kept by every history. *)
Lemma run_invariant : forall (I : state' -> Prop) (ok : label Payload -> Prop),
  (forall s l s', ok l -> I s -> stp s l = Some s' -> I s') ->
  forall ls s s', Forall ok ls -> I s -> runs s ls = Some s' -> I s'.
Proof.
  intros I ok K ls. induction ls as [|l ls IH]; intros s s' F H R; cbn in R.
  - congruence.
  - destruct (stp s l) as [s1|] eqn:E; [|discriminate].
    inversion F; subst. eauto.
Qed.

(** ** The invariant of the consumer *)

Definition pending (p : phase Op) (i : nat) : list Op :=
  match p with
  | Sending (op :: r) j _ | Pausing (op :: r) j _ =>
      if Nat.ltb i j then r else op :: r
  | _ => []
  end.

Definition wf_phase (p : phase Op) : Prop :=
  match p with
  | Sending _ _ b => exists j, j <= 20 /\ b = (10 * 2 ^ N.of_nat j)%N
  | Pausing ops _ b =>
      ops <> [] /\ exists j, j < 20 /\ b = (10 * 2 ^ N.of_nat j)%N
  | _ => True
  end.

Record Inv (h0 : HState) (s : state') : Prop := mkInv {
  I_h : hstate s = hafter h0 (taken s);
  I_t : forall i t, nth_error (tasks s) i = Some t ->
    (running t = true ->
       accepted t ++ pending (at_phase s) i = operations handle h0 (taken s)) /\
    prefix (accepted t) (operations handle h0 (taken s));
  I_b : wf_phase (at_phase s);
  I_r : received s = length (taken s);
  I_e : empty_payload s = length (filter without_payload (taken s));
  I_x : handling_error s = rejected handle h0 (taken s);
  I_g : generated s = length (operations handle h0 (taken s))
}.

Lemma inv_start : forall ts h, Forall fresh ts -> Inv h (start ts h).
Proof.
  intros ts h F. constructor; cbn; auto.
  intros i t H. rewrite Forall_forall in F.
  destruct (F t (nth_error_In _ _ H)) as (_ & _ & A). rewrite A.
  split; [reflexivity|]. exists []. reflexivity.
Qed.

Lemma prefix_app_r : forall {A} (p l r : list A), prefix p l -> prefix p (l ++ r).
Proof. intros A p l r [k ->]. exists (k ++ r). symmetry. apply app_assoc. Qed.

Lemma wf_first : forall ops i, wf_phase (Sending ops i first_backoff).
Proof. intros ops i. exists 0. split; [lia|reflexivity]. Qed.

Lemma below_max : forall j, N.leb max_backoff (10 * 2 ^ N.of_nat j) = false ->
  j < 20.
Proof.
  intros j H. apply N.leb_gt in H. destruct (Nat.lt_ge_cases j 20) as [L|L]; [exact L|].
  assert (P : (2 ^ 20 <= 2 ^ N.of_nat j)%N) by (apply N.pow_le_mono_r; lia).
  unfold max_backoff in H. change (2 ^ 20)%N with 1048576%N in P. lia.
Qed.

Lemma above_max : forall j, N.leb max_backoff (10 * 2 ^ N.of_nat j) = true ->
  20 <= j.
Proof.
  intros j H. apply N.leb_le in H. destruct (Nat.lt_ge_cases j 20) as [L|L]; [|exact L].
  assert (P : (2 ^ N.of_nat j <= 2 ^ 19)%N) by (apply N.pow_le_mono_r; lia).
  unfold max_backoff in H. change (2 ^ 19)%N with 524288%N in P. lia.
Qed.

(** Taking up an input. *)
Lemma inv_yield : forall h0 s x,
  Inv h0 s -> at_phase s = Idle -> Inv h0 (on_input handle x (count_received x s)).
Proof.
  intros h0 s x [Ih It Ib Ir Ie Ix Ig] P.
  assert (T : forall i t, nth_error (tasks s) i = Some t ->
    (running t = true -> accepted t = operations handle h0 (taken s)) /\
    prefix (accepted t) (operations handle h0 (taken s))).
  { intros i t H. destruct (It i t H) as [A B]. split; [|exact B].
    intros R. specialize (A R). rewrite P in A. cbn in A.
    rewrite app_nil_r in A. exact A. }
  assert (L : length (taken s ++ [x]) = S (length (taken s)))
    by (rewrite app_length; cbn; lia).
  destruct x as [[p|]| | | |]; cbn [on_input].
  - cbn [count_received hstate]. rewrite Ih.
    destruct (handle (hafter h0 (taken s)) p) as [h' [ops|]] eqn:E;
      constructor; cbn;
      rewrite ?hafter_snoc, ?operations_snoc, ?rejected_snoc, ?filter_app;
      cbn; rewrite ?E; cbn; rewrite ?app_nil_r; auto.
    + intros i t H. destruct (T i t H) as [A B]. split.
      * intros R. rewrite (A R). destruct ops; cbn; reflexivity.
      * apply prefix_app_r, B.
    + exact (wf_first ops 0).
    + rewrite L. congruence.
    + lia.
    + rewrite app_length, Ig. reflexivity.
    + intros i t H. destruct (T i t H) as [A B]. split; [|exact B].
      intros R. rewrite app_nil_r. auto.
    + rewrite L. congruence.
    + rewrite Ix. lia.
  - constructor; cbn;
      rewrite ?hafter_snoc, ?operations_snoc, ?rejected_snoc, ?filter_app;
      cbn; rewrite ?app_nil_r; auto.
    + intros i t H. destruct (T i t H) as [A B]. split; [|exact B].
      intros R. rewrite app_nil_r. auto.
    + rewrite L. congruence.
    + rewrite app_length, Ie. cbn. lia.
    + lia.
  - constructor; cbn;
      rewrite ?hafter_snoc, ?operations_snoc, ?rejected_snoc, ?filter_app;
      cbn; rewrite ?app_nil_r; auto; try lia.
    intros i t H. destruct (T i t H) as [A B]. split; [|exact B].
    intros R. rewrite app_nil_r. auto.
  - constructor; cbn;
      rewrite ?hafter_snoc, ?operations_snoc, ?rejected_snoc, ?filter_app;
      cbn; rewrite ?app_nil_r; auto; try lia.
    intros i t H. destruct (T i t H) as [A B]. split; [|exact B].
    intros R. rewrite app_nil_r. auto.
  - constructor; cbn;
      rewrite ?hafter_snoc, ?operations_snoc, ?rejected_snoc, ?filter_app;
      cbn; rewrite ?app_nil_r; auto; try lia.
    intros i t H. destruct (T i t H) as [A B]. split; [|exact B].
    intros R. rewrite app_nil_r. auto.
  - constructor; cbn;
      rewrite ?hafter_snoc, ?operations_snoc, ?rejected_snoc, ?filter_app;
      cbn; rewrite ?app_nil_r; auto; try lia.
    intros i t H. destruct (T i t H) as [A B]. split; [|exact B].
    intros R. rewrite app_nil_r. auto.
Qed.

(** A change of phase and of nothing the invariant reads, when no task
    sees a different rest. *)
Lemma inv_same : forall h0 (s s' : state'),
  Inv h0 s ->
  hstate s' = hstate s -> taken s' = taken s -> received s' = received s ->
  empty_payload s' = empty_payload s -> handling_error s' = handling_error s ->
  generated s' = generated s -> wf_phase (at_phase s') ->
  (forall i t, nth_error (tasks s') i = Some t ->
     exists t0, nth_error (tasks s) i = Some t0 /\ accepted t = accepted t0 /\
       (running t = true -> running t0 = true /\
          pending (at_phase s') i = pending (at_phase s) i)) ->
  Inv h0 s'.
Proof.
  intros h0 s s' [Ih It Ib Ir Ie Ix Ig] E1 E2 E3 E4 E5 E6 W T.
  constructor; rewrite ?E1, ?E2, ?E3, ?E4, ?E5, ?E6; auto.
  intros i t H. destruct (T i t H) as (t0 & H0 & A & R). rewrite A.
  destruct (It i t0 H0) as [X Y]. split; [|exact Y].
  intros Q. destruct (R Q) as [Q0 P]. rewrite P. auto.
Qed.

Ltac same I :=
  match type of I with
  | Inv _ ?s =>
      match goal with
      | |- Inv ?h0 ?s' =>
          refine (inv_same h0 s s' I eq_refl eq_refl eq_refl eq_refl eq_refl
                    eq_refl _ _)
      end
  end.

Lemma inv_turn : forall h0 s ops i b s',
  Inv h0 s -> at_phase s = Sending ops i b -> send_turn ops i b s = Some s' ->
  Inv h0 s'.
Proof.
  intros h0 s ops i b s' I P H. unfold send_turn in H.
  destruct ops as [|op r].
  { apply Some_inj in H; subst s'. same I; [exact Logic.I|].
    cbn. intros k t Hk. exists t. rewrite P. cbn. auto. }
  destruct (nth_error (tasks s) i) as [t|] eqn:N.
  - destruct (running t) eqn:R.
    + destruct (Nat.ltb (waiting t) (capacity t)); [|discriminate].
      apply Some_inj in H; subst s'. destruct I as [Ih It Ib Ir Ie Ix Ig].
      constructor; cbn; auto; [|apply (wf_first (op :: r) (S i))].
      intros k u Hk. destruct (Nat.eq_dec i k) as [<-|D].
      * rewrite (nth_error_set_nth_eq _ _ _ _ N) in Hk. injection Hk as <-.
        destruct (It i t N) as [A _]. specialize (A R). rewrite P in A.
        cbn [pending] in A. rewrite Nat.ltb_irrefl in A. cbn.
        assert (L : Nat.leb i i = true) by (apply Nat.leb_le; lia).
        change (Nat.ltb i (S i)) with (Nat.leb i i). rewrite L.
        rewrite <- app_assoc. cbn. split; [intros _; exact A|].
        exists r. rewrite <- app_assoc. cbn. symmetry. exact A.
      * rewrite nth_error_set_nth_ne in Hk by exact D.
        destruct (It k u Hk) as [A B]. split; [|exact B].
        intros Q. specialize (A Q). rewrite P in A. cbn [pending] in A.
        replace (Nat.leb k i) with (Nat.ltb k i); [exact A|].
        destruct (Nat.ltb_spec k i), (Nat.leb_spec k i); lia.
    + assert (K : forall k u, nth_error (tasks s) k = Some u ->
                running u = true -> Nat.ltb k (S i) = Nat.ltb k i).
      { intros k u Hk Q. assert (k <> i) by (intros ->; congruence).
        destruct (Nat.ltb_spec k i), (Nat.ltb_spec k (S i)); lia. }
      destruct (N.leb max_backoff b) eqn:B; apply Some_inj in H; subst s'.
      * same I; [apply (wf_first (op :: r) (S i))|].
        cbn [with_phase at_phase tasks]. intros k u Hk. exists u.
        split; [exact Hk|]. split; [reflexivity|].
        intros Q. split; [exact Q|]. rewrite P. cbn [pending].
        rewrite (K k u Hk Q). reflexivity.
      * same I; [ |].
        -- cbn. split; [discriminate|]. pose proof (I_b _ _ I) as W.
           rewrite P in W. destruct W as (j & J & ->). exists j.
           split; [apply below_max; exact B|reflexivity].
        -- cbn. intros k u Hk. exists u. rewrite P. auto.
  - apply Some_inj in H; subst s'. same I; [apply (wf_first r 0)|].
    cbn [with_phase at_phase tasks]. intros k u Hk. exists u.
    split; [exact Hk|]. split; [reflexivity|]. intros Q. split; [exact Q|].
    rewrite P. cbn [pending]. apply nth_error_None in N.
    assert (k < length (tasks s)) by (apply nth_error_Some; congruence).
    replace (Nat.ltb k i) with true by (symmetry; apply Nat.ltb_lt; lia).
    destruct r; reflexivity.
Qed.

Lemma inv_step : forall h0 s l s',
  Inv h0 s -> stp s l = Some s' -> Inv h0 s'.
Proof.
  intros h0 s l s' I H. destruct l; cbn [step] in H.
  - destruct (at_phase s) eqn:P; try discriminate.
    destruct (commands s); [|discriminate].
    destruct (handle_alive s); [|discriminate]. apply Some_inj in H; subst s'.
    apply inv_yield; assumption.
  - destruct (at_phase s) eqn:P; try discriminate.
    destruct (commands s); [destruct (handle_alive s); [discriminate|]|];
      apply Some_inj in H; subst s';
      (same I; [exact Logic.I|]);
      cbn; intros k u Hk; exists u; rewrite P; auto.
  - destruct (at_phase s) eqn:P; try discriminate.
    eapply inv_turn; eassumption.
  - destruct (at_phase s) eqn:P; try discriminate. apply Some_inj in H; subst s'.
    same I; [ |].
    + pose proof (I_b _ _ I) as W. rewrite P in W.
      cbn [at_phase wf_phase] in *. destruct W as (_ & j & J & ->). exists (S j). split; [lia|].
      rewrite Nat2N.inj_succ, N.pow_succ_r'. lia.
    + cbn [at_phase tasks]. intros k u Hk. exists u. rewrite P. auto.
  - destruct (at_phase s) eqn:P; try discriminate. apply Some_inj in H; subst s'.
    same I; [destruct ok; exact Logic.I|].
    cbn. intros k u Hk. exists u. rewrite P. destruct ok; auto.
  - destruct (handle_alive s); [|discriminate].
    assert (s' = mk_state (at_phase s) (tasks s) (hstate s) 1
                   true (taken s) (clock s) (received s)
                   (empty_payload s) (handling_error s) (generated s)
                   (send_error s) (reconnects s)) as ->
      by (destruct (at_phase s), (commands s); congruence).
    same I; [exact (I_b _ _ I)|].
    cbn. intros k u Hk. exists u. auto.
  - destruct (handle_alive s); [|discriminate]. apply Some_inj in H; subst s'.
    same I; [exact (I_b _ _ I)|].
    cbn. intros k u Hk. exists u. auto.
  - destruct (nth_error (tasks s) i) as [t|] eqn:N; [|discriminate].
    destruct (running t) eqn:R; [|discriminate].
    destruct (waiting t) as [|w]; [discriminate|]. apply Some_inj in H; subst s'.
    same I; [exact (I_b _ _ I)|].
    cbn. intros k u Hk. destruct (Nat.eq_dec i k) as [<-|D].
    + rewrite (nth_error_set_nth_eq _ _ _ _ N) in Hk. injection Hk as <-.
      exists t. auto.
    + rewrite nth_error_set_nth_ne in Hk by exact D. exists u. auto.
  - destruct (nth_error (tasks s) i) as [t|] eqn:N; [|discriminate].
    destruct (running t) eqn:R; [|discriminate]. apply Some_inj in H; subst s'.
    same I; [exact (I_b _ _ I)|].
    cbn. intros k u Hk. destruct (Nat.eq_dec i k) as [<-|D].
    + rewrite (nth_error_set_nth_eq _ _ _ _ N) in Hk. injection Hk as <-.
      exists t. cbn. split; [exact N|]. split; [reflexivity|discriminate].
    + rewrite nth_error_set_nth_ne in Hk by exact D. exists u. auto.
Qed.

Lemma reachable_inv : forall ts h ls s,
  reachable handle ts h ls s -> Inv h s.
Proof.
  intros ts h ls s [F R].
  apply (run_invariant (Inv h) (fun _ => True)) with (ls := ls) (s := start ts h).
  - intros s0 l s1 _. apply inv_step.
  - apply Forall_forall. auto.
  - apply inv_start, F.
  - exact R.
Qed.

(** ** What the history shows *)

Definition one (b : bool) : nat := if b then 1 else 0.

Lemma turn_keeps : forall ops i b (s s' : state'),
  send_turn ops i b s = Some s' ->
  taken s' = taken s /\ reconnects s' = reconnects s /\
  commands s' = commands s /\ handle_alive s' = handle_alive s /\
  length (tasks s') = length (tasks s) /\ clock s' = clock s.
Proof.
  intros ops i b s s' H. unfold send_turn in H.
  destruct ops as [|op r]; [apply Some_inj in H; subst s'; cbn; auto 6|].
  destruct (nth_error (tasks s) i) as [t|]; [|apply Some_inj in H; subst s'; cbn; auto 6].
  destruct (running t).
  - destruct (Nat.ltb (waiting t) (capacity t)); [|discriminate].
    apply Some_inj in H; subst s'. cbn. rewrite length_set_nth. auto 6.
  - destruct (N.leb max_backoff b); apply Some_inj in H; subst s'; cbn; auto 6.
Qed.

Lemma on_input_keeps : forall x (s : state'),
  taken (on_input handle x s) = taken s /\
  reconnects (on_input handle x s) = reconnects s /\
  commands (on_input handle x s) = commands s /\
  handle_alive (on_input handle x s) = handle_alive s /\
  tasks (on_input handle x s) = tasks s /\
  send_error (on_input handle x s) = send_error s.
Proof.
  intros x s. destruct x as [[p|]| | | |]; cbn; auto 6.
  destruct (handle (hstate s) p) as [h' [ops|]]; cbn; auto 6.
Qed.

Lemma step_history : forall (s : state') l s',
  stp s l = Some s' ->
  taken s' = taken s ++ yielded [l] /\
  reconnects s' = reconnects s + one (is_retry l).
Proof.
  intros s l s' H. destruct l; cbn [step] in H; cbn [yielded is_retry one].
  - destruct (at_phase s); try discriminate.
    destruct (commands s); [|discriminate].
    destruct (handle_alive s); [|discriminate]. apply Some_inj in H; subst s'.
    destruct (on_input_keeps x (count_received x s)) as (A & B & _).
    rewrite A, B. cbn. split; [reflexivity|lia].
  - destruct (at_phase s); try discriminate.
    destruct (commands s); [destruct (handle_alive s); [discriminate|]|];
      apply Some_inj in H; subst s'; cbn; rewrite app_nil_r; split; auto; lia.
  - destruct (at_phase s); try discriminate.
    destruct (turn_keeps _ _ _ _ _ H) as (A & B & _). rewrite A, B, app_nil_r.
    split; auto; lia.
  - destruct (at_phase s); try discriminate. apply Some_inj in H; subst s'.
    cbn. rewrite app_nil_r. split; auto; lia.
  - destruct (at_phase s); try discriminate. apply Some_inj in H; subst s'.
    cbn. rewrite app_nil_r. split; auto; lia.
  - destruct (handle_alive s); [|discriminate].
    destruct (at_phase s), (commands s); try discriminate; apply Some_inj in H; subst s';
      cbn; rewrite app_nil_r; split; auto; lia.
  - destruct (handle_alive s); [|discriminate]. apply Some_inj in H; subst s'.
    cbn. rewrite app_nil_r. split; auto; lia.
  - destruct (nth_error (tasks s) i) as [t|]; [|discriminate].
    destruct (running t); [|discriminate].
    destruct (waiting t); [discriminate|]. apply Some_inj in H; subst s'.
    cbn. rewrite app_nil_r. split; auto; lia.
  - destruct (nth_error (tasks s) i) as [t|]; [|discriminate].
    destruct (running t); [|discriminate]. apply Some_inj in H; subst s'.
    cbn. rewrite app_nil_r. split; auto; lia.
Qed.

Lemma run_history : forall ls (s s' : state'),
  runs s ls = Some s' ->
  taken s' = taken s ++ yielded ls /\
  reconnects s' = reconnects s + length (filter is_retry ls).
Proof.
  induction ls as [|l ls IH]; intros s s' R; cbn [run] in R.
  - injection R as <-. cbn. rewrite app_nil_r. split; auto; lia.
  - destruct (stp s l) as [s1|] eqn:E; [|discriminate].
    destruct (step_history _ _ _ E) as [A B].
    destruct (IH _ _ R) as [C D]. rewrite C, D, A, B. split.
    + rewrite <- app_assoc. f_equal. exact (eq_sym (yielded_app [l] ls)).
    + cbn [filter]. destruct (is_retry l); cbn; lia.
Qed.

Lemma reachable_taken : forall ts h ls s,
  reachable handle ts h ls s -> taken s = yielded ls.
Proof. intros ts h ls s [_ R]. exact (proj1 (run_history _ _ _ R)). Qed.

(** ** No task ends: no failure *)

Definition no_failure (s : state') : Prop :=
  Forall (fun t => running t = true) (tasks s) /\ send_error s = 0 /\
  match at_phase s with Pausing _ _ _ => False | _ => True end.

Lemma forall_set_nth : forall {A} (P : A -> Prop) l i x,
  Forall P l -> P x -> Forall P (set_nth l i x).
Proof.
  induction l as [|a l IH]; intros [|i] x F H; cbn; auto;
    inversion F; subst; constructor; auto.
Qed.

Definition not_end (l : label Payload) : Prop :=
  match l with End _ => False | _ => True end.

Lemma no_failure_step : forall s l s',
  not_end l -> no_failure s -> stp s l = Some s' -> no_failure s'.
Proof.
  intros s l s' K (F & Z & P) H. unfold no_failure.
  destruct l; cbn [step] in H.
  - destruct (at_phase s); try discriminate.
    destruct (commands s); [|discriminate].
    destruct (handle_alive s); [|discriminate]. apply Some_inj in H; subst s'.
    destruct (on_input_keeps x (count_received x s)) as (_ & _ & _ & _ & A & B).
    rewrite A, B. split; [exact F|]. split; [exact Z|].
    destruct x as [[p|]| | | |]; cbn; auto.
    destruct (handle (hstate s) p) as [h' [ops|]]; exact Logic.I.
  - destruct (at_phase s); try discriminate.
    destruct (commands s); [destruct (handle_alive s); [discriminate|]|];
      apply Some_inj in H; subst s'; cbn; auto.
  - destruct (at_phase s) as [|ops i b| | |]; try discriminate.
    unfold send_turn in H. destruct ops as [|op r]; [apply Some_inj in H; subst s'; cbn; auto|].
    destruct (nth_error (tasks s) i) as [t|] eqn:N; [|apply Some_inj in H; subst s'; cbn; auto].
    rewrite Forall_forall in F. rewrite (F t (nth_error_In _ _ N)) in H.
    destruct (Nat.ltb (waiting t) (capacity t)); [|discriminate].
    apply Some_inj in H; subst s'. cbn. split; auto. apply forall_set_nth; [|reflexivity].
    apply Forall_forall. exact F.
  - destruct (at_phase s); try discriminate. destruct P.
  - destruct (at_phase s); try discriminate. apply Some_inj in H; subst s'. cbn.
    destruct ok; auto.
  - destruct (handle_alive s); [|discriminate].
    destruct (at_phase s), (commands s); try discriminate; apply Some_inj in H; subst s';
      cbn; auto.
  - destruct (handle_alive s); [|discriminate]. apply Some_inj in H; subst s'. cbn; auto.
  - destruct (nth_error (tasks s) i) as [t|]; [|discriminate].
    destruct (running t); [|discriminate].
    destruct (waiting t); [discriminate|]. apply Some_inj in H; subst s'. cbn.
    split; auto. apply forall_set_nth; auto.
  - destruct K.
Qed.

(** ** A task that has ended *)

Definition ended_task (i : nat) (s : state') : Prop :=
  exists t, nth_error (tasks s) i = Some t /\ running t = false.

Lemma ended_task_step : forall i s l s',
  ended_task i s -> stp s l = Some s' -> ended_task i s'.
Proof.
  intros i s l s' (t & N & R) H. unfold ended_task.
  assert (K : forall k u, nth_error (tasks s) k = Some u -> running u = true ->
            forall x, nth_error (set_nth (tasks s) k x) i = Some t).
  { intros k u Hk Q x. rewrite nth_error_set_nth_ne; [exact N|].
    intros ->. congruence. }
  destruct l; cbn [step] in H.
  - destruct (at_phase s); try discriminate.
    destruct (commands s); [|discriminate].
    destruct (handle_alive s); [|discriminate]. apply Some_inj in H; subst s'.
    destruct (on_input_keeps x (count_received x s)) as (_ & _ & _ & _ & A & _).
    rewrite A. exists t. auto.
  - destruct (at_phase s); try discriminate.
    destruct (commands s); [destruct (handle_alive s); [discriminate|]|];
      apply Some_inj in H; subst s'; cbn; eauto.
  - destruct (at_phase s) as [|ops k b| | |]; try discriminate.
    unfold send_turn in H. destruct ops as [|op r]; [apply Some_inj in H; subst s'; cbn; eauto|].
    destruct (nth_error (tasks s) k) as [u|] eqn:Nk; [|apply Some_inj in H; subst s'; cbn; eauto].
    destruct (running u) eqn:Q.
    + destruct (Nat.ltb (waiting u) (capacity u)); [|discriminate].
      apply Some_inj in H; subst s'. cbn. exists t. split; [|exact R]. eapply K; eauto.
    + destruct (N.leb max_backoff b); apply Some_inj in H; subst s'; cbn; eauto.
  - destruct (at_phase s); try discriminate. apply Some_inj in H; subst s'. cbn; eauto.
  - destruct (at_phase s); try discriminate. apply Some_inj in H; subst s'. cbn; eauto.
  - destruct (handle_alive s); [|discriminate].
    destruct (at_phase s), (commands s); try discriminate; apply Some_inj in H; subst s';
      cbn; eauto.
  - destruct (handle_alive s); [|discriminate]. apply Some_inj in H; subst s'. cbn; eauto.
  - destruct (nth_error (tasks s) i0) as [u|] eqn:Nk; [|discriminate].
    destruct (running u) eqn:Q; [|discriminate].
    destruct (waiting u); [discriminate|]. apply Some_inj in H; subst s'. cbn.
    exists t. split; [|exact R]. eapply K; eauto.
  - destruct (nth_error (tasks s) i0) as [u|] eqn:Nk; [|discriminate].
    destruct (running u) eqn:Q; [|discriminate]. apply Some_inj in H; subst s'. cbn.
    exists t. split; [|exact R]. eapply K; eauto.
Qed.

Lemma clock_step : forall s l s',
  stp s l = Some s' -> (clock s <= clock s')%N.
Proof.
  intros s l s' H. destruct l; cbn [step] in H.
  - destruct (at_phase s); try discriminate.
    destruct (commands s); [|discriminate].
    destruct (handle_alive s); [|discriminate]. apply Some_inj in H; subst s'.
    destruct x as [[p|]| | | |]; cbn; try lia.
    destruct (handle (hstate s) p) as [h' [ops|]]; cbn; lia.
  - destruct (at_phase s); try discriminate.
    destruct (commands s); [destruct (handle_alive s); [discriminate|]|];
      apply Some_inj in H; subst s'; cbn; lia.
  - destruct (at_phase s); try discriminate.
    destruct (turn_keeps _ _ _ _ _ H) as (_ & _ & _ & _ & _ & ->). lia.
  - destruct (at_phase s); try discriminate. apply Some_inj in H; subst s'. cbn. lia.
  - destruct (at_phase s); try discriminate. apply Some_inj in H; subst s'. cbn. lia.
  - destruct (handle_alive s); [|discriminate].
    destruct (at_phase s), (commands s); try discriminate; apply Some_inj in H; subst s';
      cbn; lia.
  - destruct (handle_alive s); [|discriminate]. apply Some_inj in H; subst s'. cbn. lia.
  - destruct (nth_error (tasks s) i) as [t|]; [|discriminate].
    destruct (running t); [|discriminate].
    destruct (waiting t); [discriminate|]. apply Some_inj in H; subst s'. cbn. lia.
  - destruct (nth_error (tasks s) i) as [t|]; [|discriminate].
    destruct (running t); [|discriminate]. apply Some_inj in H; subst s'. cbn. lia.
Qed.

(** The consumer is held at task [i], or ten seconds have gone. *)
Definition held (ops : list Op) (i : nat) (c0 : N) (s : state') : Prop :=
  ended_task i s /\
  ((c0 + 10485750 <= clock s)%N \/
   exists j, (clock s + 10 = c0 + 10 * 2 ^ N.of_nat j)%N /\
     ((j <= 20 /\ at_phase s = Sending ops i (10 * 2 ^ N.of_nat j)) \/
      (j < 20 /\ at_phase s = Pausing ops i (10 * 2 ^ N.of_nat j)))).

Lemma env_keeps : forall s l s',
  own l = false -> stp s l = Some s' ->
  at_phase s' = at_phase s /\ clock s' = clock s /\
  map accepted (tasks s') = map accepted (tasks s) /\
  length (tasks s') = length (tasks s) /\
  (commands s <= commands s').
Proof.
  intros s l s' O H. destruct l; try discriminate O; cbn [step] in H.
  - destruct (handle_alive s); [|discriminate].
    destruct (at_phase s), (commands s) eqn:C; try discriminate; apply Some_inj in H; subst s';
      cbn; auto 6.
  - destruct (handle_alive s); [|discriminate]. apply Some_inj in H; subst s'. cbn. auto 6.
  - destruct (nth_error (tasks s) i) as [t|] eqn:N; [|discriminate].
    destruct (running t); [|discriminate].
    destruct (waiting t); [discriminate|]. apply Some_inj in H; subst s'. cbn.
    rewrite length_set_nth, (map_set_nth_same _ _ _ _ _ N) by reflexivity.
    auto 6.
  - destruct (nth_error (tasks s) i) as [t|] eqn:N; [|discriminate].
    destruct (running t); [|discriminate]. apply Some_inj in H; subst s'. cbn.
    rewrite length_set_nth, (map_set_nth_same _ _ _ _ _ N) by reflexivity.
    auto 6.
Qed.

Lemma held_step : forall op r i c0 s l s',
  held (op :: r) i c0 s -> stp s l = Some s' -> held (op :: r) i c0 s'.
Proof.
  intros op r i c0 s l s' [E D] H. split; [eapply ended_task_step; eauto|].
  destruct D as [D|(j & C & D)].
  { left. pose proof (clock_step _ _ _ H). lia. }
  destruct (own l) eqn:O.
  2:{ right. exists j. destruct (env_keeps _ _ _ O H) as (P & Q & _).
      rewrite P, Q. auto. }
  destruct D as [[J P]|[J P]].
  - destruct l; try discriminate O; cbn [step] in H; rewrite P in H;
      try discriminate.
    destruct E as (t & N & R). unfold send_turn in H. rewrite N, R in H.
    destruct (N.leb max_backoff (10 * 2 ^ N.of_nat j)) eqn:B;
      apply Some_inj in H; subst s'.
    + left. cbn. apply above_max in B. assert (j = 20) as -> by lia.
      change (2 ^ N.of_nat 20)%N with 1048576%N in C. lia.
    + right. exists j. cbn [clock with_phase at_phase]. split; [exact C|].
      right. split; [apply below_max; exact B|reflexivity].
  - destruct l; try discriminate O; cbn [step] in H; rewrite P in H;
      try discriminate.
    apply Some_inj in H; subst s'. right. exists (S j). cbn [clock at_phase].
    rewrite Nat2N.inj_succ, N.pow_succ_r'. split.
    + clear - C. revert C. generalize (2 ^ N.of_nat j)%N. intros X C. lia.
    + left. split; [lia|]. f_equal. generalize (2 ^ N.of_nat j)%N.
      intros X. lia.
Qed.

Lemma held_run : forall ls op r i c0 s s',
  held (op :: r) i c0 s -> runs s ls = Some s' -> held (op :: r) i c0 s'.
Proof.
  intros ls op r i c0 s s' H R.
  apply (run_invariant (held (op :: r) i c0) (fun _ => True)) with (ls := ls) (s := s);
    auto.
  - intros s0 l s1 _. apply held_step.
  - apply Forall_forall. auto.
Qed.

(** The turns it takes to give up on a task that has ended. *)
Fixpoint turns (n : nat) : list (label Payload) :=
  match n with
  | O => [Turn]
  | S n' => Turn :: Wake :: turns n'
  end.

Lemma give_up : forall n op r i (s : state') j t,
  n + j = 20 ->
  nth_error (tasks s) i = Some t -> running t = false ->
  at_phase s = Sending (op :: r) i (10 * 2 ^ N.of_nat j) ->
  exists s', runs s (turns n) = Some s' /\
    at_phase s' = Sending (op :: r) (S i) first_backoff /\
    tasks s' = tasks s /\ send_error s' = S (send_error s) /\
    (clock s' + 10 * 2 ^ N.of_nat j = clock s + 10 * 2 ^ 20)%N.
Proof.
  induction n as [|n IH]; intros op r i s j t J N R P.
  - cbn [turns run step]. rewrite P. unfold send_turn. rewrite N, R.
    assert (j = 20) as -> by lia.
    change (N.leb max_backoff (10 * 2 ^ N.of_nat 20)) with true. cbv iota.
    eexists. split; [reflexivity|].
    cbn [at_phase tasks send_error clock with_phase]. auto 6.
  - cbn [turns run step]. rewrite P. unfold send_turn. rewrite N, R.
    destruct (N.leb max_backoff (10 * 2 ^ N.of_nat j)) eqn:B.
    { apply above_max in B. lia. }
    cbn [with_phase at_phase tasks hstate commands handle_alive taken clock
         received empty_payload handling_error generated send_error reconnects].
    match goal with |- exists s', runs ?s1 _ = _ /\ _ =>
      destruct (IH op r i s1 (S j) t) as (s' & A1 & A2 & A3 & A4 & A5) end;
      [lia|exact N|exact R| |].
    + cbn [at_phase]. f_equal. rewrite Nat2N.inj_succ, N.pow_succ_r'. lia.
    + exists s'. split; [exact A1|]. split; [exact A2|]. split; [exact A3|].
      split; [exact A4|]. cbn [clock] in A5.
      rewrite Nat2N.inj_succ, N.pow_succ_r' in A5. lia.
Qed.

(** ** A task whose channel is full *)

Definition full_task (i : nat) (s : state') : Prop :=
  exists t, nth_error (tasks s) i = Some t /\ running t = true /\
    capacity t <= waiting t.

Definition leaves (i : nat) (l : label Payload) : Prop :=
  match l with Receive k | End k => k <> i | _ => True end.

Definition stuck (op : Op) (r : list Op) (i : nat) (b : N) (acc : list (list Op))
  (s : state') : Prop :=
  full_task i s /\ at_phase s = Sending (op :: r) i b /\
  map accepted (tasks s) = acc.

Lemma stuck_step : forall op r i b acc s l s',
  leaves i l -> stuck op r i b acc s -> stp s l = Some s' ->
  stuck op r i b acc s'.
Proof.
  intros op r i b acc s l s' K (F & P & A) H.
  destruct (own l) eqn:O.
  - exfalso. destruct F as (t & N & R & L).
    destruct l; try discriminate O; cbn [step] in H; rewrite P in H;
      try discriminate.
    unfold send_turn in H. rewrite N, R in H.
    replace (Nat.ltb (waiting t) (capacity t)) with false in H; [discriminate|].
    symmetry. apply Nat.ltb_ge. exact L.
  - destruct (env_keeps _ _ _ O H) as (B1 & B2 & B3 & B4 & _).
    split; [|split; [congruence|congruence]].
    destruct F as (t & N & R & L).
    destruct l; try discriminate O; cbn [step leaves] in *.
    + destruct (handle_alive s); [|discriminate].
      destruct (at_phase s), (commands s); try discriminate; apply Some_inj in H; subst s';
        exists t; auto.
    + destruct (handle_alive s); [|discriminate]. apply Some_inj in H; subst s'.
      exists t; auto.
    + destruct (nth_error (tasks s) i0) as [u|]; [|discriminate].
      destruct (running u); [|discriminate].
      destruct (waiting u); [discriminate|]. apply Some_inj in H; subst s'. exists t. cbn.
      rewrite nth_error_set_nth_ne by exact K. auto.
    + destruct (nth_error (tasks s) i0) as [u|]; [|discriminate].
      destruct (running u); [|discriminate]. apply Some_inj in H; subst s'. exists t. cbn.
      rewrite nth_error_set_nth_ne by exact K. auto.
Qed.

(** ** Reconnecting *)

Definition not_back (l : label Payload) : Prop :=
  match l with Retry true => False | _ => True end.

Lemma reconnecting_step : forall sec s l s',
  not_back l -> at_phase s = Reconnecting sec -> stp s l = Some s' ->
  at_phase s' = Reconnecting sec.
Proof.
  intros sec s l s' K P H. destruct (own l) eqn:O.
  - destruct l; try discriminate O; cbn [step] in H; rewrite P in H;
      try discriminate. apply Some_inj in H; subst s'. destruct ok; [destruct K|reflexivity].
  - destruct (env_keeps _ _ _ O H) as (Q & _). congruence.
Qed.

Lemma retry_many : forall n (s : state') sec,
  at_phase s = Reconnecting sec ->
  exists s', runs s (repeat (Retry false) n) = Some s' /\
    at_phase s' = Reconnecting sec /\ commands s' = commands s /\
    clock s' = (clock s + N.of_nat n * sec * 1000000)%N.
Proof.
  induction n as [|n IH]; intros s sec P.
  - exists s. cbn. repeat split; auto. lia.
  - cbn [repeat run step]. rewrite P.
    match goal with |- exists s', runs ?s1 _ = _ /\ _ =>
      destruct (IH s1 sec eq_refl) as (s' & A1 & A2 & A3 & A4) end.
    exists s'. split; [exact A1|]. split; [exact A2|]. split; [exact A3|].
    rewrite A4. cbn [clock]. lia.
Qed.

(** ** Own steps after a shutdown command *)

Definition lev (b : N) : nat := N.to_nat (N.log2 (b / 10)).

Lemma lev_pow : forall j, lev (10 * 2 ^ N.of_nat j) = j.
Proof.
  intros j. unfold lev. rewrite N.mul_comm, N.div_mul by lia.
  rewrite N.log2_pow2 by lia. apply Nat2N.id.
Qed.

Definition weight (n : nat) (p : phase Op) : nat :=
  match p with
  | Idle => 1
  | Ended _ => 0
  | Reconnecting _ => 0
  | Sending [] _ _ => 2
  | Sending (_ :: r) i b =>
      3 + length r * (41 * n + 1) +
      (if Nat.ltb i n then (n - i - 1) * 41 + (2 * (20 - lev b) + 1) else 0)
  | Pausing ops i b =>
      3 + (length ops - 1) * (41 * n + 1) + (n - i - 1) * 41 +
      2 * (20 - lev b)
  end.

Definition asked (h0 : HState) (s : state') : Prop :=
  Inv h0 s /\ 0 < commands s /\
  match at_phase s with Reconnecting _ => False | _ => True end.

Lemma weight_first : forall n ops,
  weight n (Sending ops 0 first_backoff) = 2 + length ops * (41 * n + 1).
Proof.
  intros n [|op r]; cbn [weight length]; [lia|].
  assert (L : lev first_backoff = 0) by reflexivity. rewrite L.
  destruct (Nat.ltb_spec 0 n); lia.
Qed.

Lemma asked_step : forall h0 s l s',
  asked h0 s -> stp s l = Some s' ->
  asked h0 s' /\ length (tasks s') = length (tasks s) /\
  weight (length (tasks s)) (at_phase s') + one (own l) <=
  weight (length (tasks s)) (at_phase s).
Proof.
  intros h0 s l s' (I & C & P) H.
  assert (I' : Inv h0 s') by (eapply inv_step; eauto).
  destruct (own l) eqn:O.
  2:{ destruct (env_keeps _ _ _ O H) as (B1 & B2 & B3 & B4 & B5).
      split; [split; [exact I'|split; [lia|rewrite B1; exact P]]|].
      split; [exact B4|]. rewrite B1. cbn. lia. }
  cbn [one]. set (n := length (tasks s)).
  destruct l; try discriminate O; cbn [step] in H.
  - destruct (at_phase s); try discriminate.
    destruct (commands s); [lia|discriminate].
  - destruct (at_phase s) eqn:Ph; try discriminate.
    destruct (commands s) eqn:Cm; [lia|]. apply Some_inj in H; subst s'.
    split; [split; [exact I'|cbn; split; [lia|exact Logic.I]]|]. cbn. split; [reflexivity|lia].
  - destruct (at_phase s) as [|ops i b| | |] eqn:Ph; try discriminate.
    destruct (turn_keeps _ _ _ _ _ H) as (_ & _ & E3 & _ & E5 & _).
    pose proof (I_b _ _ I) as W. rewrite Ph in W. destruct W as (j & J & ->).
    assert (G : match at_phase s' with Reconnecting _ => False | _ => True end /\
      weight n (at_phase s') + 1 <=
      weight n (Sending ops i (10 * 2 ^ N.of_nat j))).
    { unfold send_turn in H. destruct ops as [|op r].
      { apply Some_inj in H; subst s'. cbn. split; [exact Logic.I|lia]. }
      destruct (nth_error (tasks s) i) as [t|] eqn:N.
      - assert (L : i < n) by (apply nth_error_Some; congruence).
        assert (M : weight n (Sending (op :: r) (S i) first_backoff) + 1 <=
                    weight n (Sending (op :: r) i (10 * 2 ^ N.of_nat j))).
        { cbn [weight]. rewrite lev_pow.
          assert (Q : lev first_backoff = 0) by reflexivity. rewrite Q.
          destruct (Nat.ltb_spec i n), (Nat.ltb_spec (S i) n); lia. }
        destruct (running t).
        + destruct (Nat.ltb (waiting t) (capacity t)); [|discriminate].
          apply Some_inj in H; subst s'. cbn [at_phase with_phase]. split; [exact Logic.I|exact M].
        + destruct (N.leb max_backoff (10 * 2 ^ N.of_nat j)) eqn:B; apply Some_inj in H; subst s';
            cbn [at_phase with_phase]; (split; [exact Logic.I|]); [exact M|].
          cbn [weight length]. rewrite lev_pow.
          destruct (Nat.ltb_spec i n); [|lia].
          replace (S (length r) - 1) with (length r) by lia. lia.
      - apply Some_inj in H; subst s'. cbn [at_phase with_phase]. split; [exact Logic.I|].
        rewrite weight_first. cbn [weight]. apply nth_error_None in N.
        fold n in N. destruct (Nat.ltb_spec i n); lia. }
    destruct G as [G1 G2].
    split; [split; [exact I'|split; [lia|exact G1]]|]. split; [exact E5|exact G2].
  - destruct (at_phase s) as [| |ops i b| |] eqn:Ph; try discriminate.
    pose proof (I_b _ _ I) as W. rewrite Ph in W. destruct W as (NE & j & J & ->).
    apply Some_inj in H; subst s'.
    split; [split; [exact I'|cbn; split; [lia|exact Logic.I]]|].
    split; [reflexivity|]. cbn [at_phase].
    destruct ops as [|op r]; [congruence|]. cbn [weight length].
    replace (10 * 2 ^ N.of_nat j * 2)%N with (10 * 2 ^ N.of_nat (S j))%N
      by (rewrite Nat2N.inj_succ, N.pow_succ_r'; lia).
    rewrite !lev_pow. replace (S (length r) - 1) with (length r) by lia.
    destruct (Nat.ltb_spec i n); lia.
  - destruct (at_phase s); try discriminate. destruct P.
Qed.

Lemma asked_run : forall h0 ls s s',
  asked h0 s -> runs s ls = Some s' ->
  length (filter own ls) <= weight (length (tasks s)) (at_phase s).
Proof.
  intros h0. induction ls as [|l ls IH]; intros s s' A R; cbn [run] in R.
  - cbn. lia.
  - destruct (stp s l) as [s1|] eqn:E; [|discriminate].
    destruct (asked_step _ _ _ _ A E) as (A1 & L & W).
    specialize (IH _ _ A1 R). rewrite L in IH. cbn [filter].
    destruct (own l); cbn [one length] in *; lia.
Qed.

Lemma weight_bound : forall n ops i b,
  weight n (Sending ops i b) <= 2 + length ops * (41 * n + 1) /\
  (ops <> [] -> (exists j, j < 20 /\ b = (10 * 2 ^ N.of_nat j)%N) ->
   weight n (Pausing ops i b) <= 2 + length ops * (41 * n + 1) + 41).
Proof.
  intros n ops i b. split.
  - destruct ops as [|op r]; cbn [weight length]; [lia|].
    destruct (Nat.ltb_spec i n); [|lia].
    assert ((n - i - 1) * 41 + 41 <= 41 * n) by lia.
    pose proof (Nat.le_sub_l 20 (lev b)). lia.
  - intros NE (j & J & ->). destruct ops as [|op r]; [congruence|].
    cbn [weight length]. rewrite lev_pow.
    replace (S (length r) - 1) with (length r) by lia. lia.
Qed.

(** ** Progress *)

Lemma progress : forall h0 (s : state'),
  Inv h0 s ->
  (exists e, at_phase s = Ended e) \/
  (exists l s', own l = true /\ stp s l = Some s') \/
  (exists op r i b, at_phase s = Sending (op :: r) i b /\ full_task i s).
Proof.
  intros h0 s I. destruct (at_phase s) as [|ops i b|ops i b|sec|e] eqn:P.
  - right. left. destruct (commands s) eqn:C.
    + destruct (handle_alive s) eqn:A.
      * exists (Yield OtherError). eexists. split; [reflexivity|].
        cbn [step]. rewrite P, C, A. reflexivity.
      * exists Command. eexists. split; [reflexivity|].
        cbn [step]. rewrite P, C, A. reflexivity.
    + exists Command. eexists. split; [reflexivity|].
      cbn [step]. rewrite P, C. reflexivity.
  - destruct (send_turn ops i b s) as [s'|] eqn:T.
    + right. left. exists Turn, s'. split; [reflexivity|]. cbn [step].
      rewrite P. exact T.
    + right. right. unfold send_turn in T. destruct ops as [|op r]; [discriminate|].
      destruct (nth_error (tasks s) i) as [t|] eqn:N; [|discriminate].
      destruct (running t) eqn:R.
      * destruct (Nat.ltb (waiting t) (capacity t)) eqn:L; [discriminate|].
        apply Nat.ltb_ge in L. exists op, r, i, b. split; [reflexivity|].
        exists t. auto.
      * destruct (N.leb max_backoff b); discriminate.
  - right. left. exists Wake. eexists. split; [reflexivity|]. cbn [step].
    rewrite P. reflexivity.
  - right. left. exists (Retry true). eexists. split; [reflexivity|]. cbn [step].
    rewrite P. reflexivity.
  - left. exists e. reflexivity.
Qed.

(** ** Why the consumer ended *)

Definition reasons (s : state') (asked dropped : bool) : Prop :=
  (0 < commands s -> asked = true) /\
  (handle_alive s = false -> dropped = true) /\
  match at_phase s with
  | Ended ByShutdown => asked = true
  | Ended NoHandleLeft => dropped = true
  | Ended TopicError => exists xs, taken s = xs ++ [UnknownTopic]
  | _ => True
  end.

Definition is_shutdown (l : label Payload) : bool :=
  match l with Shutdown => true | _ => false end.
Definition is_drop (l : label Payload) : bool :=
  match l with DropHandle => true | _ => false end.

Lemma orb_keep : forall a b : bool, a = true -> a || b = true.
Proof. intros [|] b H; [reflexivity|discriminate]. Qed.

Lemma ended_final : forall s e l s',
  at_phase s = Ended e -> stp s l = Some s' ->
  own l = false /\ at_phase s' = Ended e /\ taken s' = taken s.
Proof.
  intros s e l s' P H.
  assert (O : own l = false).
  { destruct l; try reflexivity; cbn [step] in H; rewrite P in H; discriminate. }
  split; [exact O|]. destruct (env_keeps _ _ _ O H) as (Q & _).
  split; [congruence|]. destruct (step_history _ _ _ H) as [T _].
  rewrite T. destruct l; try discriminate O; cbn; apply app_nil_r.
Qed.

Lemma reasons_step : forall s l s' a d,
  reasons s a d -> stp s l = Some s' ->
  reasons s' (a || is_shutdown l) (d || is_drop l).
Proof.
  intros s l s' a d (R1 & R2 & R3) H.
  destruct (at_phase s) as [|ops i b|ops i b|sec|e] eqn:P.
  5:{ destruct (ended_final _ _ _ _ P H) as (O & Q & T). unfold reasons.
      rewrite Q, T. split; [|split].
      - intros C. destruct l; try discriminate O; cbn [step is_shutdown] in *;
          rewrite ?orb_true_r, ?orb_false_r; try reflexivity.
        + destruct (handle_alive s); [|discriminate]. apply Some_inj in H; subst s'. auto.
        + destruct (nth_error (tasks s) i) as [t|]; [|discriminate].
          destruct (running t); [|discriminate].
          destruct (waiting t); [discriminate|]. apply Some_inj in H; subst s'. auto.
        + destruct (nth_error (tasks s) i) as [t|]; [|discriminate].
          destruct (running t); [|discriminate]. apply Some_inj in H; subst s'. auto.
      - intros C. destruct l; try discriminate O; cbn [step is_drop] in *;
          rewrite ?orb_true_r, ?orb_false_r; try reflexivity.
        + destruct (handle_alive s) eqn:AL; [|auto].
          rewrite P in H. discriminate.
        + destruct (nth_error (tasks s) i) as [t|]; [|discriminate].
          destruct (running t); [|discriminate].
          destruct (waiting t); [discriminate|]. apply Some_inj in H; subst s'. auto.
        + destruct (nth_error (tasks s) i) as [t|]; [|discriminate].
          destruct (running t); [|discriminate]. apply Some_inj in H; subst s'. auto.
      - destruct e; auto using orb_keep. }
  all: destruct l; cbn [step] in H; rewrite ?P in H; try discriminate;
    unfold reasons; cbn [is_shutdown is_drop];
    rewrite ?orb_true_r, ?orb_false_r.
  (* Yield, Command *)
  1:{ destruct (commands s) eqn:C; [|discriminate].
    destruct (handle_alive s) eqn:AL; [|discriminate]. apply Some_inj in H; subst s'.
    destruct (on_input_keeps x (count_received x s)) as (T & _ & Cm & Al & _).
    rewrite T, Cm, Al. cbn [count_received commands handle_alive taken].
    rewrite C, AL. split; [lia|]. split; [discriminate|].
    destruct x as [[p|]| | | |]; cbn; auto.
    + destruct (handle (hstate s) p) as [h' [ops|]]; exact Logic.I.
    + exists (taken s). reflexivity. }
  1:{ destruct (commands s) eqn:C.
    + destruct (handle_alive s) eqn:AL; [discriminate|]. apply Some_inj in H; subst s'.
      cbn. rewrite C, AL. auto.
    + apply Some_inj in H; subst s'. cbn. rewrite C. split; [auto|]. split; [auto|].
      apply R1. lia. }
  (* the rest *)
  all: try (destruct (turn_keeps _ _ _ _ _ H) as (_ & _ & E3 & E4 & _);
    rewrite E3, E4; split; [exact R1|]; split; [exact R2|];
    unfold send_turn in H; destruct ops as [|op r];
    [apply Some_inj in H; subst s'; exact Logic.I|];
    destruct (nth_error (tasks s) i) as [t|]; [|apply Some_inj in H; subst s'; exact Logic.I];
    destruct (running t);
    [destruct (Nat.ltb (waiting t) (capacity t)); [|discriminate];
     apply Some_inj in H; subst s'; exact Logic.I|];
    destruct (N.leb max_backoff b); apply Some_inj in H; subst s'; exact Logic.I).
  all: try (apply Some_inj in H; subst s'; cbn; destruct ok; auto; fail).
  all: try (apply Some_inj in H; subst s'; cbn; auto; fail).
  all: try (destruct (handle_alive s) eqn:AL; [|discriminate];
            destruct (commands s) eqn:C; try discriminate; apply Some_inj in H; subst s';
            cbn; rewrite ?P, ?AL; repeat split; auto; discriminate).
  all: try (destruct (handle_alive s) eqn:AL; [|discriminate]; apply Some_inj in H; subst s';
            cbn; rewrite ?P; auto; fail).
  all: try (destruct (nth_error (tasks s) _) as [t|]; [|discriminate];
            destruct (running t); [|discriminate];
            try (destruct (waiting t); [discriminate|]);
            apply Some_inj in H; subst s'; cbn; rewrite ?P; auto; fail).
Qed.

Lemma reasons_run : forall ls s s' a d,
  reasons s a d -> runs s ls = Some s' ->
  reasons s' (a || existsb is_shutdown ls) (d || existsb is_drop ls).
Proof.
  induction ls as [|l ls IH]; intros s s' a d R H; cbn [run] in H.
  - apply Some_inj in H; subst s'. cbn. rewrite !orb_false_r. exact R.
  - destruct (stp s l) as [s1|] eqn:E; [|discriminate].
    cbn [existsb]. rewrite !orb_assoc.
    eapply IH; [|exact H]. eapply reasons_step; eauto.
Qed.

End Proofs.
