(* Invariants of the BMP server. *)
From Coq Require Import List Bool Arith NArith Lia.
From Verif Require Import BvModel BvSpec.
Import ListNotations.

Section Server.
Variable d : bool.
Notation after := (after d).
Notation step := (step d).

Lemma after_snoc es e : after (es ++ [e]) = step (after es) e.
Proof. unfold BvSpec.after, run. now rewrite fold_left_app. Qed.
Lemma after_app es fs : after (es ++ fs) = run d (after es) fs.
Proof. unfold BvSpec.after, run. now rewrite fold_left_app. Qed.
Lemma in_set l i w x : In x (set_worker l i w) -> x = w \/ In x l.
Proof.
  unfold set_worker. rewrite in_app_iff. cbn [In]. intros [H|[H|H]]; [right|left; congruence|right].
  - rewrite <- (firstn_skipn i l). apply in_or_app. now left.
  - rewrite <- (firstn_skipn (S i) l). apply in_or_app. now right.
Qed.
Lemma nth_set l i w j : i < length l -> nth_error (set_worker l i w) j = if Nat.eqb j i then Some w else nth_error l j.
Proof.
  intros H. unfold set_worker. assert (Hf : length (firstn i l) = i) by (rewrite firstn_length; lia).
  destruct (Nat.eqb_spec j i) as [-> |Hne].
  - rewrite nth_error_app2 by lia. rewrite Hf, Nat.sub_diag. reflexivity.
  - destruct (Nat.lt_ge_cases j i).
    + rewrite nth_error_app1 by lia. rewrite <- (firstn_skipn i l) at 2. now rewrite nth_error_app1 by lia.
    + rewrite nth_error_app2 by lia. rewrite Hf. destruct (j - i) as [|k] eqn:E; [lia|]. cbn [nth_error].
      rewrite <- (firstn_skipn (S i) l) at 2. rewrite nth_error_app2; rewrite firstn_length; [f_equal; lia|lia].
Qed.
Lemma nth_lt {A} (l : list A) t x : nth_error l t = Some x -> t < length l.
Proof. intros H. apply nth_error_Some. congruence. Qed.
Lemma split_nth (l : list worker) i x : nth_error l i = Some x -> l = firstn i l ++ x :: skipn (S i) l.
Proof.
  revert l. induction i as [|i IH]; intros [|y l] H; try discriminate.
  - injection H as ->. reflexivity.
  - cbn [firstn skipn app]. f_equal. apply IH. exact H.
Qed.
Lemma open_set l i x w : nth_error l i = Some x ->
  length (filter open (set_worker l i w)) + (if open x then 1 else 0) = length (filter open l) + (if open w then 1 else 0).
Proof.
  intros H. rewrite (split_nth l i x H) at 2. unfold set_worker. rewrite !filter_app, !app_length. cbn [filter].
  destruct (open x), (open w); cbn [length]; lia.
Qed.
Lemma open_wake l : length (filter open (map wake_worker l)) = length (filter open l).
Proof. induction l as [|[] l IH]; cbn; auto. Qed.

(* ---------------- the count ---------------- *)
Lemma count_step v e : v_count v = open_connections v -> v_count (step v e) = open_connections (step v e).
Proof.
  unfold open_connections. intros H. unfold BvModel.step. cbv zeta.
  destruct e; try (destruct (v_main v) as [[] []|[]|]; exact H);
    try (destruct (o_due _); cbn [v_count v_workers]; rewrite ?open_wake; exact H).
  - destruct (v_main v) as [out inn|w|]; try exact H. cbn [v_count v_workers]. rewrite filter_app, app_length. cbn. lia.
  - destruct (v_main v); try exact H. destruct d; exact H.
  - destruct (nth_error (v_workers v) i) as [[w| | |]|] eqn:E; try exact H. cbn [v_count v_workers].
    pose proof (open_set _ _ _ (Running (load (v_shut v) w)) E) as Ho. cbn in Ho. lia.
  - destruct (nth_error (v_workers v) i) as [[w| | |]|] eqn:E; try exact H. cbn [v_count v_workers].
    pose proof (open_set _ _ _ (Running (register w)) E) as Ho. cbn in Ho. lia.
  - destruct (nth_error (v_workers v) i) as [[[]| | |]|] eqn:E; try exact H. cbn [v_count v_workers].
    pose proof (open_set _ _ _ Leaving E) as Ho. cbn in Ho. lia.
  - destruct (nth_error (v_workers v) i) as [[w| | |]|] eqn:E; try exact H. cbn [v_count v_workers].
    pose proof (open_set _ _ _ Leaving E) as Ho. cbn in Ho. lia.
  - destruct (nth_error (v_workers v) i) as [[w| | |]|] eqn:E; try exact H. cbn [v_count v_workers].
    pose proof (open_set _ _ _ (Dropping (v_count v - 1)) E) as Ho. cbn in Ho. lia.
  - destruct (nth_error (v_workers v) i) as [[w| |n|]|] eqn:E; try exact H. cbn [v_count v_workers].
    pose proof (open_set _ _ _ Left E) as Ho. cbn in Ho. lia.
Qed.
Lemma count_after es : v_count (after es) = open_connections (after es).
Proof. induction es as [|e es IH] using rev_ind; [reflexivity|]. rewrite after_snoc. now apply count_step. Qed.

(* ---------------- shutdown reaches the connections ---------------- *)
Definition told (v : server) : Prop :=
  (o_due (v_shut v) = true -> o_flag (v_shut v) = true) /\
  (shut_down v -> forall w, In (Running w) (v_workers v) -> w = Fresh \/ w = Woken).
Lemma told_step v e : told v -> (e = WakeShutdown -> forall w, In (Running w) (v_workers v) -> w <> Loaded) -> told (step v e).
Proof.
  intros [T0 T] Hc. unfold BvModel.step. cbv zeta. assert (Hid : told v) by (now split).
  assert (Hsame : forall v', v_shut v' = v_shut v -> (forall w, In (Running w) (v_workers v') -> In (Running w) (v_workers v)) -> told v').
  { intros v' E1 E2. split; [rewrite E1; exact T0|]. unfold shut_down. rewrite E1. intros Hs w Hw. apply (T Hs). auto. }
  assert (Hsig : forall v', v_shut v' = signal (v_shut v) -> v_workers v' = v_workers v -> told v').
  { intros v' E1 E2. unfold told, shut_down. rewrite E1, E2. unfold signal. destruct (o_flag (v_shut v)) eqn:Ef.
    - rewrite Ef. split; [auto|]. intros [_ Hs]. apply T. unfold shut_down. auto.
    - cbn. split; [auto|]. intros [_ Hx]. discriminate. }
  assert (Hset : forall i y w' (m : main) sh gr en c, sh = v_shut v -> nth_error (v_workers v) i = Some y ->
     (forall w, Running w = w' -> shut_down v -> w = Fresh \/ w = Woken) ->
     told (Server sh gr en c (set_worker (v_workers v) i w') m)).
  { intros i y w' m sh gr en c -> Hi Hw. split; [exact T0|]. intros Hs w Hin. cbn [v_workers] in Hin. apply in_set in Hin as [E|Hin]; [apply (Hw w E Hs)|apply (T Hs w Hin)]. }
  destruct e; try (destruct (v_main v) as [[] []|[]|]; apply Hsame; auto; fail).
  - destruct (v_main v) as [[] []|[]|]; apply Hsig; reflexivity.
  - destruct (o_due (v_shut v)) eqn:Ed; [|exact Hid]. split; [discriminate|]. cbn [v_workers]. intros _ w Hin.
    apply in_map_iff in Hin as (y & E & Hy). destruct y as [x| | |]; try discriminate. injection E as <-.
    specialize (Hc eq_refl x Hy). destruct x; cbn; auto. congruence.
  - destruct (o_due (v_grace v)); apply Hsame; auto.
  - destruct (o_due (v_end v)); apply Hsame; auto.
  - destruct (v_main v) as [out inn|w|]; try (exact Hid). split; [exact T0|]. cbn [v_workers]. intros Hs w Hin.
    apply in_app_or in Hin as [Hin|[E|[]]]; [now apply T|]. injection E as <-. now left.
  - destruct (v_main v); try (exact Hid). destruct d; [|exact Hid]. apply Hsig; reflexivity.
  - destruct (nth_error (v_workers v) i) as [[w| | |]|] eqn:E; try (exact Hid). apply (Hset i (Running w)); auto.
    intros w' Ew [Hs1 Hs2]. injection Ew as ->. destruct (T (conj Hs1 Hs2) w (nth_error_In _ _ E)) as [-> | ->]; cbn; rewrite ?Hs1; auto.
  - destruct (nth_error (v_workers v) i) as [[w| | |]|] eqn:E; try (exact Hid). apply (Hset i (Running w)); auto.
    intros w' Ew Hs. injection Ew as ->. destruct (T Hs w (nth_error_In _ _ E)) as [-> | ->]; cbn; auto.
  - destruct (nth_error (v_workers v) i) as [[[]| | |]|] eqn:E; try (exact Hid). eapply Hset; eauto; discriminate.
  - destruct (nth_error (v_workers v) i) as [[w| | |]|] eqn:E; try (exact Hid). eapply Hset; eauto; discriminate.
  - destruct (nth_error (v_workers v) i) as [[w| | |]|] eqn:E; try (exact Hid). eapply Hset; eauto; discriminate.
  - destruct (nth_error (v_workers v) i) as [[w| |n|]|] eqn:E; try (exact Hid). eapply Hset; eauto; discriminate.
Qed.
Lemma told_after es : clear_of_window d es -> told (after es).
Proof.
  induction es as [|e es IH] using rev_ind; intros Hc; [split; [discriminate|intros [H _]; discriminate]|].
  rewrite after_snoc. apply told_step.
  - apply IH. intros pre post -> w Hw. apply (Hc pre (post ++ [e])); [|exact Hw]. now rewrite <- app_assoc.
  - intros -> w Hw. exact (Hc es [] eq_refl w Hw).
Qed.
(* a connection caught in the window is never told *)
Lemma stuck v fs : nth_error (v_workers v) 0 = Some (Running Registered) -> shut_down v -> ~ In (WFinished 0) fs ->
  nth_error (v_workers (run d v fs)) 0 = Some (Running Registered).
Proof.
  revert v. induction fs as [|e fs IH]; intros v Hw Hs Hn; [exact Hw|]. cbn [run fold_left].
  assert (Hstep : nth_error (v_workers (step v e)) 0 = Some (Running Registered) /\ shut_down (step v e)).
  { destruct Hs as [Hs1 Hs2]. unfold shut_down, BvModel.step. cbv zeta.
    assert (Hsig : signal (v_shut v) = v_shut v) by (unfold signal; now rewrite Hs1).
    assert (Hset : forall i y w', nth_error (v_workers v) i = Some y -> (i = 0 -> w' = Running Registered) ->
      nth_error (set_worker (v_workers v) i w') 0 = Some (Running Registered)).
    { intros i y w' Hi Hw'. rewrite nth_set by (now apply nth_lt in Hi). destruct (Nat.eqb_spec 0 i) as [<- |_]; [now rewrite Hw'|exact Hw]. }
    destruct e; try (destruct (v_main v) as [[] []|[]|]; cbn [v_workers v_shut]; rewrite ?Hsig; auto; fail).
    - rewrite Hs2. auto.
    - destruct (o_due (v_grace v)); cbn [v_workers v_shut]; auto.
    - destruct (o_due (v_end v)); cbn [v_workers v_shut]; auto.
    - destruct (v_main v); cbn [v_workers v_shut]; auto. split; [|auto]. rewrite nth_error_app1; [exact Hw|]. now apply nth_lt in Hw.
    - destruct (v_main v); cbn [v_workers v_shut]; auto. destruct d; cbn [v_workers v_shut]; rewrite ?Hsig; auto.
    - destruct (nth_error (v_workers v) i) as [[w| | |]|] eqn:E; cbn [v_workers v_shut]; auto. split; [|auto]. eapply Hset; eauto. intros ->. rewrite Hw in E. injection E as <-. reflexivity.
    - destruct (nth_error (v_workers v) i) as [[w| | |]|] eqn:E; cbn [v_workers v_shut]; auto. split; [|auto]. eapply Hset; eauto. intros ->. rewrite Hw in E. injection E as <-. reflexivity.
    - destruct (nth_error (v_workers v) i) as [[[]| | |]|] eqn:E; cbn [v_workers v_shut]; auto. split; [|auto]. eapply Hset; eauto. intros ->. congruence.
    - destruct (nth_error (v_workers v) i) as [[w| | |]|] eqn:E; cbn [v_workers v_shut]; auto. split; [|auto]. eapply Hset; eauto. intros ->. destruct Hn. now left.
    - destruct (nth_error (v_workers v) i) as [[w| | |]|] eqn:E; cbn [v_workers v_shut]; auto. split; [|auto]. eapply Hset; eauto. intros ->. congruence.
    - destruct (nth_error (v_workers v) i) as [[w| |n|]|] eqn:E; cbn [v_workers v_shut]; auto. split; [|auto]. eapply Hset; eauto. intros ->. congruence. }
  destruct Hstep as [H1 H2]. apply IH; auto. intros Hin. apply Hn. now right.
Qed.

(* ---------------- closed only when empty ---------------- *)
Record quiet (v : server) : Prop := {
  q_before : o_flag (v_grace v) = false -> o_flag (v_end v) = false /\
    match v_main v with Listening _ inn => inn <> Woken | Ending _ => False | Closed r => r <> ByEmpty end;
  q_drop : o_flag (v_grace v) = true -> In (Dropping 0) (v_workers v) -> v_count v = 0;
  q_end : o_flag (v_end v) = true -> v_count v = 0;
  q_due : (o_due (v_end v) = true -> o_flag (v_end v) = true) /\ (o_due (v_grace v) = true -> o_flag (v_grace v) = true);
  q_main : match v_main v with Ending Woken => o_flag (v_end v) = true | Closed ByEmpty => v_count v = 0 | _ => True end
}.
Lemma quiet_step v e : quiet v ->
  (e = Accept -> o_flag (v_grace v) = false) -> (e = CallGraceful -> o_flag (v_grace v) = false -> forall n, ~ In (Dropping n) (v_workers v)) ->
  quiet (step v e).
Proof.
  intros [Q1 Q2 Q3 [Q4 Q4'] Q5] Ha Hg. unfold BvModel.step. cbv zeta.
  assert (Hid : quiet v) by (constructor; auto).
  (* a change of the main task alone *)
  assert (Hmain : forall m sh, (o_flag (v_grace v) = false -> match m with Listening _ inn => inn <> Woken | Ending _ => False | Closed r => r <> ByEmpty end) ->
    match m with Ending Woken => o_flag (v_end v) = true | Closed ByEmpty => v_count v = 0 | _ => True end ->
    quiet (Server sh (v_grace v) (v_end v) (v_count v) (v_workers v) m)).
  { intros m sh H1 H2. constructor; cbn [v_grace v_end v_count v_workers v_main v_shut]; auto. intros E. split; [now apply Q1|exact (H1 E)]. }
  (* a change of one worker that is not leaving *)
  assert (Hwork : forall i w, (forall n, w <> Dropping n) -> quiet (Server (v_shut v) (v_grace v) (v_end v) (v_count v) (set_worker (v_workers v) i w) (v_main v))).
  { intros i w Hw. constructor; cbn [v_grace v_end v_count v_workers v_main v_shut]; auto. intros E Hin. apply in_set in Hin as [E'|Hin]; [now destruct (Hw 0)|auto]. }
  destruct e.
  - apply Hmain; [intros E; now apply Q1|exact Q5].
  - destruct (o_due (v_shut v)); [|exact Hid]. constructor; cbn [v_grace v_end v_count v_workers v_main v_shut]; auto.
    + intros E. destruct (Q1 E) as [H1 H2]. split; [exact H1|]. destruct (v_main v); auto.
    + intros E Hin. apply Q2; [exact E|]. apply in_map_iff in Hin as (y & Ey & Hy). destruct y; try discriminate. cbn in Ey. now injection Ey as ->.
    + destruct (v_main v); auto.
  - unfold signal. destruct (o_flag (v_grace v)) eqn:Ef; constructor; cbn [v_grace v_end v_count v_workers v_main v_shut o_flag o_due]; rewrite ?Ef; auto; try discriminate.
    intros _ Hin. now destruct (Hg eq_refl eq_refl 0).
  - destruct (o_due (v_grace v)) eqn:Ed; [|exact Hid]. specialize (Q4' eq_refl). constructor; cbn [v_grace v_end v_count v_workers v_main v_shut o_flag o_due]; auto; try discriminate.
    destruct (v_main v); auto.
  - destruct (o_due (v_end v)) eqn:Ed; [|exact Hid]. specialize (Q4 eq_refl). constructor; cbn [v_grace v_end v_count v_workers v_main v_shut o_flag o_due]; auto; try discriminate.
    + intros E. destruct (Q1 E). congruence.
    + destruct (v_main v) as [| |]; auto. destruct (wake w); auto.
  - destruct (v_main v) eqn:Em; try exact Hid. apply Hmain; [intros E; destruct (Q1 E); auto|exact I].
  - destruct (v_main v) eqn:Em; try exact Hid. apply Hmain; [intros E; destruct (Q1 E); auto|exact I].
  - destruct (v_main v) eqn:Em; try exact Hid. apply Hmain; [intros E; destruct (Q1 E) as [_ Hi]|exact I].
    destruct inn; cbn; try congruence. rewrite E. discriminate.
  - destruct (v_main v) eqn:Em; try exact Hid. apply Hmain; [intros E; destruct (Q1 E) as [_ Hi]|exact I]. destruct inn; cbn; congruence.
  - destruct (v_main v) eqn:Em; try exact Hid. specialize (Ha eq_refl). destruct (Q1 Ha) as [He Hi].
    constructor; cbn [v_grace v_end v_count v_workers v_main v_shut o_flag o_due]; auto; try congruence.
    intros _. split; [exact He|discriminate].
  - destruct (v_main v) as [[] ?| |] eqn:Em; try exact Hid. apply Hmain; [intros _; discriminate|exact I].
  - destruct (v_main v) as [? []| |] eqn:Em; try exact Hid. destruct (Nat.eqb_spec (v_count v) 0) as [E0|E0]; apply Hmain; auto; intros E; destruct (Q1 E) as [_ Hi]; congruence.
  - destruct (v_main v) eqn:Em; try exact Hid. apply Hmain; [intros E; destruct (Q1 E); auto|].
    destruct w; cbn; auto. destruct (o_flag (v_end v)); auto.
  - destruct (v_main v) eqn:Em; try exact Hid. apply Hmain; [intros E; destruct (Q1 E); auto|]. destruct w; cbn; auto.
  - destruct (v_main v) as [|[]|] eqn:Em; try exact Hid. apply Hmain; [intros E; destruct (Q1 E); contradiction|auto].
  - destruct (v_main v) eqn:Em; try exact Hid. destruct d; [|exact Hid]. apply Hmain; [intros _; discriminate|exact I].
  - destruct (nth_error (v_workers v) i) as [[]|]; try exact Hid. apply Hwork; discriminate.
  - destruct (nth_error (v_workers v) i) as [[]|]; try exact Hid. apply Hwork; discriminate.
  - destruct (nth_error (v_workers v) i) as [[[]| | |]|]; try exact Hid. apply Hwork; discriminate.
  - destruct (nth_error (v_workers v) i) as [[]|]; try exact Hid. apply Hwork; discriminate.
  - destruct (nth_error (v_workers v) i) as [[]|] eqn:E; try exact Hid. constructor; cbn [v_grace v_end v_count v_workers v_main v_shut]; auto.
    + intros Ef Hin. apply in_set in Hin as [E'|Hin]; [injection E' as E'; lia|]. rewrite (Q2 Ef Hin). reflexivity.
    + intros Ef. rewrite (Q3 Ef). reflexivity.
    + destruct (v_main v) as [|[]|[]]; auto. now rewrite Q5.
  - destruct (nth_error (v_workers v) i) as [[w| |n|]|] eqn:E; try exact Hid.
    destruct (Nat.eqb_spec n 0) as [-> |Hn]; cbn [andb]; [|apply Hwork; discriminate].
    destruct (o_flag (v_grace v)) eqn:Ef; [|apply Hwork; discriminate].
    pose proof (Q2 eq_refl (nth_error_In _ _ E)) as Hc. constructor; cbn [v_grace v_end v_count v_workers v_main v_shut]; auto; try congruence.
    + unfold signal. destruct (o_flag (v_end v)) eqn:Ee; [rewrite Ee|]; cbn; split; auto.
    + destruct (v_main v) as [|[]|[]]; auto. unfold signal. now rewrite Q5.
Qed.
Lemma grace_mono v e : o_flag (v_grace (step v e)) = true -> o_flag (v_grace v) = true \/ e = CallGraceful \/ (e = WakeGraceful /\ o_due (v_grace v) = true).
Proof.
  unfold BvModel.step. cbv zeta. destruct e; auto; try (destruct (v_main v) as [[] []|[]|]; cbn [v_grace]; auto; fail);
    try (destruct (nth_error (v_workers v) i) as [[[]| | |]|]; cbn [v_grace]; auto; fail).
  - destruct (o_due (v_shut v)); auto.
  - destruct (o_due (v_grace v)); auto.
  - destruct (o_due (v_end v)); auto.
  - destruct (v_main v); auto. destruct d; auto.
Qed.
Lemma quiet_after es : settled d es -> quiet (after es) /\ (o_flag (v_grace (after es)) = true -> In CallGraceful es).
Proof.
  induction es as [|e es IH] using rev_ind; intros Hs.
  - split; [|discriminate]. constructor; cbn; auto; try discriminate; try (split; discriminate). split; [reflexivity|discriminate].
  - assert (Hs' : settled d es).
    { intros pre post ->. destruct (Hs pre (post ++ [e])) as [H1 H2]; [now rewrite <- app_assoc|]. split; [|exact H2]. intros Hi. apply H1. apply in_or_app. now left. }
    destruct (IH Hs') as [Q G]. rewrite after_snoc. split.
    + apply quiet_step; auto.
      * intros ->. destruct (o_flag (v_grace (after es))) eqn:Ef; [exfalso|reflexivity]. specialize (G eq_refl).
        apply in_split in G as (pre & post & ->). destruct (Hs pre (post ++ [Accept])) as [H1 _]; [now rewrite <- app_assoc|].
        apply H1. apply in_or_app. right. now left.
      * intros -> _ n. destruct (Hs es [] eq_refl) as [_ H]. apply H.
    + intros H. apply in_or_app. apply grace_mono in H as [H|[-> |[_ H]]]; [left; auto|right; now left|left; apply G, (q_due _ Q), H].
Qed.
End Server.

(* ---------------- one connection ---------------- *)
Lemma serve_prefix svc items : forall k, exists rest, items = serve svc k items ++ rest.
Proof.
  induction items as [|x r IH]; intros k; [now exists []|]. cbn [serve].
  destruct (svc k); [now exists (x :: r)|now exists r| |now exists r].
  destruct x; try (now exists r). destruct (IH (S k)) as [rest E]. exists rest. cbn [app]. now rewrite <- E.
Qed.
Lemma serve_more svc items : forall k j x, nth_error (serve svc k items) (S j) = Some x ->
  svc (k + j) = Continue /\ exists m, nth_error items j = Some (Message m).
Proof.
  induction items as [|y r IH]; intros k j x H; [discriminate|]. cbn [serve] in H.
  destruct (svc k) eqn:Es; try (destruct j; discriminate H). destruct y as [m| |]; try (destruct j; discriminate H).
  cbn [nth_error] in H. destruct j as [|j].
  - rewrite Nat.add_0_r. split; [exact Es|]. now exists m.
  - destruct (IH (S k) j x H) as [H1 H2]. replace (k + S j) with (S k + j) by lia. auto.
Qed.
Lemma serve_all svc items : forall k, (forall j, svc j = Continue) -> serve svc k items = to_the_end items.
Proof.
  induction items as [|y r IH]; intros k H; [reflexivity|]. cbn [serve to_the_end]. rewrite H. destruct y; auto. now rewrite IH.
Qed.
