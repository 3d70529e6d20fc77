(* BGP peers, their handles, and the listener: C209-C214. *)
From Coq Require Import List Bool Arith Lia Permutation.
From Verif Require Import LpModel LpSpec LpProofs LpProofs2.
Import ListNotations.

(* ---- C209: keys ---- *)
Lemma present_app es e k : present (es ++ [e]) k <->
  match e with
  | Create k' => k' = k \/ present es k
  | Remove k' => k' <> k /\ present es k
  | _ => present es k
  end.
Proof.
  unfold present. rewrite fold_left_app. cbn [fold_left]. destruct e; try tauto.
  - destruct (Nat.eqb_spec k0 k); split; auto. intros [H|H]; [contradiction|exact H].
  - destruct (Nat.eqb_spec k0 k); split; auto; try discriminate; intros [H1 H2]; contradiction || exact H2.
Qed.
Lemma send_reg s g m s' : send s g m = Some s' -> registered s' = registered s.
Proof. unfold send. destruct (nth_error (tasks s) g) as [t|]; [|discriminate]. destruct (running t); intros H; injection H as <-; reflexivity. Qed.
Lemma in_keys k (l : list (nat * nat)) : In k (map fst l) <-> exists g, In (k, g) l.
Proof.
  rewrite in_map_iff. split; [intros ([k' g] & E & Hi); cbn in E; subst; eauto|intros (g & Hi); exists (k, g); auto].
Qed.
(* the keys are those of the peers created and not removed since, each once *)
Theorem C209_keys : forall es k, (In k (keys (after init es)) <-> present es k) /\ NoDup (keys (after init es)).
Proof.
  intros es k. split; [|exact (I_keys _ (inv _ (ex_intro _ es eq_refl)))].
  revert k. induction es as [|e es IH] using rev_ind; intros k; [cbn; unfold present; cbn; split; [contradiction|discriminate]|].
  rewrite after_app, present_app. cbn [after fold_left]. unfold after_event.
  set (s := after init es) in *. unfold keys in *. destruct e as [k'|k'|g|g|g m|g|g ok|g]; cbn [step].
  - destruct (find_key k' (registered s)) eqn:E.
    + rewrite IH. split; auto. intros [->|H]; [|exact H]. rewrite <- IH. apply find_key_some in E. apply in_keys. eauto.
    + cbn. rewrite IH. tauto.
  - destruct (find_key k' (registered s)) as [g|] eqn:E.
    + match goal with |- context [send ?a g Stop] => set (s0 := a) end.
      assert (R : registered (match send s0 g Stop with Some s1 => s1 | None => s end) = registered s0).
      { destruct (send s0 g Stop) eqn:Es; [eapply send_reg; exact Es|]. exfalso. unfold send, s0 in Es. cbn in Es.
        destruct (I_reg s (inv _ (ex_intro _ es eq_refl)) k' g (find_key_some _ _ _ E)) as (t & Et & _). rewrite Et in Es. destruct (running t); discriminate. }
      rewrite R. unfold s0. cbn [registered]. rewrite <- IH, !in_keys. split.
      * intros [g' Hi]. apply filter_In in Hi. destruct Hi as [Hi Hn]. cbn in Hn. apply negb_true_iff, Nat.eqb_neq in Hn. split; eauto.
      * intros [Hn [g' Hi]]. exists g'. apply filter_In. split; [exact Hi|]. cbn. apply negb_true_iff, Nat.eqb_neq. auto.
    + apply find_key_none in E. rewrite <- IH. split; [|tauto]. intros H. split; [intros ->; contradiction|exact H].
  - destruct (existsb _ (registered s)); [apply IH|]. destruct (g <? length (tasks s)); apply IH.
  - destruct (g <? length (tasks s)); apply IH.
  - destruct (send s g m) eqn:Es; [rewrite (send_reg _ _ _ _ Es)|]; apply IH.
  - destruct (nth_error (tasks s) g) as [t|]; [|apply IH]. destruct (running t); [|apply IH]. destruct (t_queue t); apply IH.
  - destruct (nth_error (tasks s) g) as [t|]; [|apply IH]. destruct (running t && _); [|apply IH]. destruct ok; [destruct (t_receiver t)|]; apply IH.
  - destruct (nth_error (tasks s) g) as [t|]; [|apply IH]. destruct (running t && _); apply IH.
Qed.
Print Assumptions C209_keys.
(* a peer is created exactly if its key is free; it is a new one, and the others go on *)
Theorem C209_create : forall s k, reachable s ->
  (In k (keys s) -> step s (Create k) = None) /\
  (~ In k (keys s) -> exists s' t, step s (Create k) = Some s' /\ tasks s' = tasks s ++ [t] /\
     t_key t = k /\ running t = true /\ t_queue t = [] /\ registered s' = (k, length (tasks s)) :: registered s).
Proof.
  intros s k Hr. cbn [step]. split; intros H.
  - destruct (find_key k (registered s)) eqn:E; [reflexivity|]. apply find_key_none in E. contradiction.
  - apply find_key_none in H. rewrite H. do 2 eexists. split; [reflexivity|]. repeat split.
Qed.
Print Assumptions C209_create.
(* each key has a peer of its own, with a controller: it is not aborted *)
Theorem C209_peer_of_key : forall s k g, reachable s -> In (k, g) (registered s) ->
  (exists t, nth_error (tasks s) g = Some t /\ t_key t = k /\ t_end t <> Some Aborted) /\
  (forall g', In (k, g') (registered s) -> g' = g) /\ (forall k', In (k', g) (registered s) -> k' = k).
Proof.
  intros s k g Hr Hi. pose proof (inv s Hr) as I. destruct (I_reg s I k g Hi) as (t & Et & Ek & Ec).
  split; [|split].
  - exists t. repeat split; auto. intros Ha. destruct (I_task s I g t Et) as (_ & T2 & _). rewrite (T2 Ha) in Ec. discriminate.
  - intros g' Hi'. pose proof (I_keys s I) as K. clear -K Hi Hi'. induction (registered s) as [|[a b] l IH]; [contradiction|].
    cbn in K. inversion K; subst. destruct Hi as [E|Hi], Hi' as [E'|Hi'].
    + congruence.
    + injection E as -> ->. exfalso. apply H1. apply in_keys. eauto.
    + injection E' as -> ->. exfalso. apply H1. apply in_keys. eauto.
    + apply IH; assumption.
  - intros k' Hi'. destruct (I_reg s I k' g Hi') as (t' & Et' & Ek' & _). congruence.
Qed.
Print Assumptions C209_peer_of_key.
(* two sessions with one key: the removed peer still runs when the new one starts *)
Theorem C209_two_sessions_refuted : exists s t1 t2, reachable s /\ nth_error (tasks s) 0 = Some t1 /\ nth_error (tasks s) 1 = Some t2 /\
  t_key t1 = t_key t2 /\ running t1 = true /\ running t2 = true /\ t_controller t1 = false.
Proof.
  exists (after init [Create 7; Remove 7; DropController 0; Create 7]). do 2 eexists. split; [eexists; reflexivity|].
  split; [reflexivity|]. split; [reflexivity|]. repeat split.
Qed.
Print Assumptions C209_two_sessions_refuted.

(* ---- C210: commands ---- *)
(* a peer takes the commands it was sent one after the other, each once *)
Theorem C210_in_order : forall s g t, reachable s -> nth_error (tasks s) g = Some t ->
  exists rest, accepted s g = t_handled t ++ rest /\ NoDup (accepted s g) /\
  (running t = true -> rest = t_queue t) /\ (running t = true -> quiet s -> rest = []).
Proof.
  intros s g t Hr Et. destruct (I_task s (inv s Hr) g t Et) as ((rest & E & Er) & _). exists (t_queue t ++ rest).
  repeat split.
  - exact E.
  - apply acc_nodup.
  - intros H. rewrite (Er H). apply app_nil_r.
  - intros H Q. rewrite (Er H), app_nil_r. specialize (Q g). cbn [step] in Q. rewrite Et, H in Q. destruct (t_queue t); [reflexivity|discriminate].
Qed.
Print Assumptions C210_in_order.
(* a command is refused exactly if the peer's task has ended *)
Theorem C210_refused : forall s g t m, reachable s -> nth_error (tasks s) g = Some t ->
  exists s', step s (Send g m) = Some s' /\
  (running t = true -> In (length (calls s)) (accepted s' g) /\ result_of s' (length (calls s)) <> Some SendError) /\
  (running t = false -> result_of s' (length (calls s)) = Some SendError).
Proof.
  intros s g t m Hr Et. pose proof (inv s Hr) as I. cbn [step]. unfold send. rewrite Et.
  destruct (running t) eqn:Er; (eexists; split; [reflexivity|split; [|try discriminate]]).
  - intros _. split.
    + rewrite acc_eq. cbn [calls refused]. rewrite acc_snoc by exact (I_refused s I). cbn. rewrite Nat.eqb_refl. apply in_or_app. right. left. reflexivity.
    + unfold result_of. cbn [calls refused answers tasks]. rewrite nth_snoc, Nat.ltb_irrefl, Nat.eqb_refl.
      replace (existsb (Nat.eqb (length (calls s))) (refused s)) with false.
      2:{ symmetry. apply has_nIn. intros H. pose proof (I_refused s I) as F. rewrite Forall_forall in F. specialize (F _ H). lia. }
      destruct m; try discriminate. destruct (find _ (answers s)); [discriminate|].
      match goal with |- match ?x with _ => _ end <> _ => destruct x as [t'|]; [|discriminate] end.
      match goal with |- (if ?x then _ else _) <> _ => destruct x; discriminate end.
  - intros H. discriminate.
  - intros _. unfold result_of. cbn [calls refused]. rewrite nth_snoc, Nat.ltb_irrefl, Nat.eqb_refl. cbn [existsb]. rewrite Nat.eqb_refl. reflexivity.
Qed.
Print Assumptions C210_refused.
(* when no task has anything to take, every call has returned *)
Theorem C210_all_return : forall s c, reachable s -> quiet s -> c < length (calls s) -> result_of s c <> None.
Proof.
  intros s c Hr Q Hc. pose proof (inv s Hr) as I. unfold result_of. apply nth_error_Some in Hc.
  destruct (nth_error (calls s) c) as [[g m]|] eqn:Ec; [|contradiction]. destruct (existsb _ (refused s)); [discriminate|].
  destruct m; try discriminate. destruct (find _ (answers s)); [discriminate|].
  pose proof (I_calls s I c g Query Ec) as Hg. apply nth_error_Some in Hg. destruct (nth_error (tasks s) g) as [t|] eqn:Et; [|contradiction].
  replace (t_queue t) with (@nil nat); [discriminate|].
  destruct (running t) eqn:Er.
  - specialize (Q g). cbn [step] in Q. rewrite Et, Er in Q. destruct (t_queue t); [reflexivity|discriminate].
  - symmetry. apply (I_task s I g t Et). exact Er.
Qed.
Print Assumptions C210_all_return.
(* an answer is about the moment after exactly the commands sent before it *)
Theorem C210_answer : forall s c l, reachable s -> result_of s c = Some (Answer l) ->
  exists g rest, nth_error (calls s) c = Some (g, Query) /\ accepted s g = l ++ c :: rest.
Proof.
  intros s c l Hr H. pose proof (inv s Hr) as I. unfold result_of in H.
  destruct (nth_error (calls s) c) as [[g m]|] eqn:Ec; [|discriminate]. destruct (existsb _ (refused s)); [discriminate|].
  destruct m; try discriminate. destruct (find _ (answers s)) as [[c' l']|] eqn:Ef.
  2:{ destruct (nth_error (tasks s) g) as [t|]; [|discriminate]. destruct (existsb _ (t_queue t)); discriminate. }
  injection H as <-. apply find_some in Ef. cbn in Ef. destruct Ef as [Hi E]. apply Nat.eqb_eq in E. subst c'.
  destruct (I_ans s I c l' Hi) as (g' & Ec' & rest & E). rewrite Ec in Ec'. injection Ec' as <-. exists g, rest. auto.
Qed.
Print Assumptions C210_answer.
(* a query of a peer that goes on is answered *)
Theorem C210_answered : forall s c g t, reachable s -> quiet s -> nth_error (calls s) c = Some (g, Query) ->
  nth_error (tasks s) g = Some t -> running t = true -> result_of s c = Some SendError \/ exists l, result_of s c = Some (Answer l).
Proof.
  intros s c g t Hr Q Ec Et Er. pose proof (inv s Hr) as I. unfold result_of. rewrite Ec.
  destruct (existsb (Nat.eqb c) (refused s)) eqn:Ef; [auto|]. right.
  destruct (C210_in_order s g t Hr Et) as (rest & E & _ & _ & E2). rewrite (E2 Er Q), app_nil_r in E.
  assert (Hi : In c (accepted s g)).
  { rewrite acc_eq. unfold acc. apply filter_In. split; [apply in_seq; apply nth_lt in Ec; lia|]. rewrite Ef, Ec, Nat.eqb_refl. reflexivity. }
  rewrite E in Hi. destruct (I_task s I g t Et) as (_ & _ & _ & T4). destruct (T4 c Hi (ex_intro _ g Ec)) as [l Hl].
  destruct (find (fun p => fst p =? c) (answers s)) as [p|] eqn:Ep; [eauto|].
  pose proof (find_none _ _ Ep _ Hl) as N. cbn in N. rewrite Nat.eqb_refl in N. discriminate.
Qed.
Print Assumptions C210_answered.

(* ---- C211: removal ---- *)
(* a removed peer is told to stop, its key is free, the others are not touched *)
Theorem C211_removed : forall s k g, reachable s -> In (k, g) (registered s) ->
  exists s', step s (Remove k) = Some s' /\ ~ In k (keys s') /\ step s' (Create k) <> None /\
  calls s' = calls s ++ [(g, Stop)] /\
  (forall g', g' <> g -> nth_error (tasks s') g' = nth_error (tasks s) g') /\
  (forall p, fst p <> k -> (In p (registered s') <-> In p (registered s))).
Proof.
  intros s k g Hr Hi. pose proof (inv s Hr) as I. destruct (I_reg s I k g Hi) as (t & Et & _). cbn [step].
  assert (E : find_key k (registered s) = Some g).
  { destruct (find_key k (registered s)) as [g'|] eqn:E; [|apply find_key_none in E; exfalso; apply E; apply in_keys; eauto].
    f_equal. apply (proj1 (proj2 (C209_peer_of_key s k g Hr Hi))). apply find_key_some. exact E. }
  rewrite E. unfold send. cbn [tasks registered calls refused answers]. rewrite Et.
  assert (N : ~ In k (map fst (filter (fun p => negb (fst p =? k)) (registered s)))).
  { intros H. apply in_map_iff in H. destruct H as (p & Ep & Hp). apply filter_In in Hp. destruct Hp as [_ Hp]. rewrite Ep, Nat.eqb_refl in Hp. discriminate. }
  assert (F : forall p : nat * nat, fst p <> k -> (In p (filter (fun p => negb (fst p =? k)) (registered s)) <-> In p (registered s))).
  { intros p Hp. rewrite filter_In. apply Nat.eqb_neq in Hp. rewrite Hp. cbn. tauto. }
  destruct (running t); (eexists; split; [reflexivity|]); unfold keys; cbn [tasks registered calls refused answers step].
  - split; [exact N|]. split; [apply find_key_none in N; rewrite N; discriminate|]. split; [reflexivity|]. split; [|exact F].
    intros g' Hg. rewrite upd_nth. apply Nat.eqb_neq in Hg. rewrite Hg. reflexivity.
  - split; [exact N|]. split; [apply find_key_none in N; rewrite N; discriminate|]. split; [reflexivity|]. split; [auto|exact F].
Qed.
Print Assumptions C211_removed.
(* it stops if its controller is kept: then, when nothing is left to do, the Stop was
   handled, or the task had ended by itself *)
Theorem C211_stopped_if_kept_partial : forall s k g s1 es t, reachable s -> In (k, g) (registered s) ->
  step s (Remove k) = Some s1 -> quiet (after s1 es) -> nth_error (tasks (after s1 es)) g = Some t -> t_controller t = true ->
  In (length (calls s)) (t_handled t) \/ t_end t = Some SessionError \/ t_end t = Some NoReceiver.
Proof.
  intros s k g s1 es t Hr Hi H Q Et Ec.
  destruct (C211_removed s k g Hr Hi) as (s1' & H' & _ & _ & Hc & _). rewrite H in H'. injection H' as <-.
  assert (Hr1 : reachable s1) by (eapply reachable_step; eauto).
  assert (Hr2 : reachable (after s1 es)) by (apply reachable_after; exact Hr1).
  pose proof (inv _ Hr2) as I2. destruct (I_task _ I2 g t Et) as (_ & T2 & _).
  destruct (t_end t) as [[| |]|] eqn:Ee; auto; [rewrite (T2 eq_refl) in Ec; discriminate|]. left.
  assert (Er : running t = true) by (unfold running; rewrite Ee; reflexivity).
  destruct (C210_in_order _ g t Hr2 Et) as (rest & E & _ & _ & E2). rewrite (E2 Er Q), app_nil_r in E. rewrite <- E.
  (* the Stop was accepted: else the task had ended before *)
  assert (M : forall s0, (exists t0, nth_error (tasks s0) g = Some t0 /\ running t0 = false) \/ In (length (calls s)) (accepted s0 g) ->
     reachable s0 -> forall es0, (exists t0, nth_error (tasks (after s0 es0)) g = Some t0 /\ running t0 = false) \/ In (length (calls s)) (accepted (after s0 es0) g)).
  { intros s0 H0 Hr0 es0. revert s0 H0 Hr0. induction es0 as [|e es0 IH]; intros s0 H0 Hr0; [exact H0|].
    change (after s0 (e :: es0)) with (after (after_event s0 e) es0). unfold after_event. destruct (step s0 e) as [s0'|] eqn:Es; [|auto].
    apply IH; [|eapply reachable_step; eauto]. clear IH es0. pose proof (inv s0 Hr0) as I0.
    assert (Snd : forall s00 g0 m0 s0'', Forall (fun c => c < length (calls s00)) (refused s00) -> send s00 g0 m0 = Some s0'' ->
      tasks s00 = tasks s0 -> calls s00 = calls s0 -> refused s00 = refused s0 ->
      (exists t0, nth_error (tasks s0'') g = Some t0 /\ running t0 = false) \/ In (length (calls s)) (accepted s0'' g)).
    { intros s00 g0 m0 s0'' F0 Hs A1 A2 A3. unfold send in Hs. destruct (nth_error (tasks s00) g0) as [t1|] eqn:Et1; [|discriminate].
      destruct H0 as [(t0 & Et0 & Er0)|H0].
      - left. destruct (running t1) eqn:Er1; injection Hs as <-; cbn [tasks]; rewrite A1; [|eauto]. rewrite upd_nth.
        destruct (Nat.eqb_spec g g0) as [<-|]; [|eauto]. rewrite A1, Et0 in Et1. congruence.
      - right. rewrite acc_eq in *. destruct (running t1); injection Hs as <-; cbn [calls refused]; rewrite A2, A3.
        + rewrite acc_snoc by exact (I_refused s0 I0). apply in_or_app. auto.
        + rewrite acc_refused. exact H0. }
    destruct e as [k0|k0|g0|g0|g0 m0|g0|g0 ok|g0]; cbn [step] in Es.
    - destruct (find_key k0 (registered s0)); [discriminate|]. injection Es as <-. destruct H0 as [(t0 & Et0 & Er0)|H0]; [|right; exact H0].
      left. exists t0. split; [|exact Er0]. cbn [tasks]. rewrite nth_error_app1; [exact Et0|eapply nth_lt; exact Et0].
    - destruct (find_key k0 (registered s0)) as [g0|]; [|discriminate]. eapply Snd; [|exact Es|reflexivity|reflexivity|reflexivity]. exact (I_refused s0 I0).
    - destruct (existsb _ (registered s0)); [discriminate|]. destruct (g0 <? length (tasks s0)); [|discriminate]. injection Es as <-.
      destruct H0 as [(t0 & Et0 & Er0)|H0]; [|right; exact H0]. left. cbn [tasks]. rewrite upd_nth. destruct (g =? g0); [|eauto].
      rewrite Et0. cbn. eexists. split; [reflexivity|exact Er0].
    - destruct (g0 <? length (tasks s0)); [|discriminate]. injection Es as <-.
      destruct H0 as [(t0 & Et0 & Er0)|H0]; [|right; exact H0]. left. cbn [tasks]. rewrite upd_nth. destruct (g =? g0); [|eauto].
      rewrite Et0. cbn. eexists. split; [reflexivity|exact Er0].
    - eapply Snd; [|exact Es|reflexivity|reflexivity|reflexivity]. exact (I_refused s0 I0).
    - destruct (nth_error (tasks s0) g0) as [t1|] eqn:Et1; [|discriminate]. destruct (running t1) eqn:Er1; [|discriminate].
      destruct (t_queue t1); [discriminate|]. injection Es as <-. destruct H0 as [(t0 & Et0 & Er0)|H0]; [|right; exact H0].
      left. cbn [tasks]. rewrite upd_nth. destruct (Nat.eqb_spec g g0) as [<-|]; [|eauto]. congruence.
    - destruct (nth_error (tasks s0) g0) as [t1|] eqn:Et1; [|discriminate]. destruct (running t1 && _); [|discriminate].
      assert (G : s0' = s0 \/ exists x, s0' = end_task s0 g0 x).
      { destruct ok; [destruct (t_receiver t1)|]; injection Es as <-; eauto. }
      destruct G as [->|[x ->]]; [exact H0|]. destruct H0 as [(t0 & Et0 & Er0)|H0]; [|right; exact H0].
      left. cbn [end_task tasks]. rewrite upd_nth. destruct (g =? g0); [|eauto]. rewrite Et0. cbn. eexists. split; reflexivity.
    - destruct (nth_error (tasks s0) g0) as [t1|] eqn:Et1; [|discriminate]. destruct (running t1 && _); [|discriminate]. injection Es as <-.
      destruct H0 as [(t0 & Et0 & Er0)|H0]; [|right; exact H0].
      left. cbn [end_task tasks]. rewrite upd_nth. destruct (g =? g0); [|eauto]. rewrite Et0. cbn. eexists. split; reflexivity. }
  destruct (M s1) with (es0 := es) as [(t0 & Et0 & Er0)|Hin]; auto; [|congruence].
  clear M. destruct (I_reg s (inv s Hr) k g Hi) as (t0 & Et0 & _).
  assert (Hs : send (State (tasks s) (filter (fun p => negb (fst p =? k)) (registered s)) (calls s) (refused s) (answers s)) g Stop = Some s1).
  { cbn [step] in H. destruct (find_key k (registered s)) as [g'|] eqn:Ek; [|discriminate].
    replace g with g'; [exact H|]. apply (proj1 (proj2 (C209_peer_of_key s k g Hr Hi))). apply find_key_some. exact Ek. }
  unfold send in Hs. cbn [tasks registered calls refused answers] in Hs. rewrite Et0 in Hs. destruct (running t0) eqn:Er0; injection Hs as <-.
  - right. rewrite acc_eq. cbn [calls refused]. rewrite acc_snoc by exact (I_refused s (inv s Hr)). cbn. rewrite Nat.eqb_refl. apply in_or_app. right. left. reflexivity.
  - left. cbn [tasks]. eauto.
Qed.
Print Assumptions C211_stopped_if_kept_partial.
(* if the controller that remove_peer returns is dropped, the abort can come before the
   Stop is taken: the session ends without being told to *)
Theorem C211_stop_lost_refuted : exists s, reachable s /\ calls s = [(0, Start); (0, Stop)] /\ result_of s 1 = Some Accepted /\
  forall es t, nth_error (tasks (after s es)) 0 = Some t -> t_handled t = [0] /\ t_end t = Some Aborted.
Proof.
  set (s := after init [Create 7; Send 0 Start; Work 0; Remove 7; DropController 0; Cancel 0]).
  exists s. split; [eexists; reflexivity|]. split; [reflexivity|]. split; [reflexivity|].
  assert (G : forall es, exists t, nth_error (tasks (after s es)) 0 = Some t /\ t_handled t = [0] /\ t_end t = Some Aborted).
  { intros es. apply (after_inv (fun s => exists t, nth_error (tasks s) 0 = Some t /\ t_handled t = [0] /\ t_end t = Some Aborted)).
    2:{ eexists. repeat split. }
    clear. intros s e s' (t & Et & Hh & He) H.
    assert (Er : running t = false) by (unfold running; rewrite He; reflexivity).
    assert (U : forall g f l, nth_error l 0 = Some t -> (g = 0 -> t_handled (f t) = [0] /\ t_end (f t) = Some Aborted) ->
      exists t', nth_error (upd g f l) 0 = Some t' /\ t_handled t' = [0] /\ t_end t' = Some Aborted).
    { intros g f l Hl Hf. rewrite upd_nth. destruct (Nat.eqb_spec 0 g) as [<-|]; [rewrite Hl; cbn; eexists; split; [reflexivity|auto]|eauto]. }
    assert (Snd : forall r g m s'', send (State (tasks s) r (calls s) (refused s) (answers s)) g m = Some s'' -> exists t', nth_error (tasks s'') 0 = Some t' /\ t_handled t' = [0] /\ t_end t' = Some Aborted).
    { intros r g m s'' Hs. unfold send in Hs. cbn [tasks registered calls refused answers] in Hs. destruct (nth_error (tasks s) g) as [t1|] eqn:E1; [|discriminate].
      destruct (running t1) eqn:Er1; injection Hs as <-; cbn [tasks]; [|eauto]. apply U; [exact Et|intros ->; congruence]. }
    destruct e as [k|k|g|g|g m|g|g ok|g]; cbn [step] in H.
    - destruct (find_key k (registered s)); [discriminate|]. injection H as <-. exists t. split; [|auto]. cbn [tasks].
      rewrite nth_error_app1; [exact Et|eapply nth_lt; exact Et].
    - destruct (find_key k (registered s)) as [g|]; [|discriminate]. eapply Snd; exact H.
    - destruct (existsb _ (registered s)); [discriminate|]. destruct (g <? length (tasks s)); [|discriminate]. injection H as <-. apply U; auto.
    - destruct (g <? length (tasks s)); [|discriminate]. injection H as <-. apply U; auto.
    - destruct s as [a b c d f]. eapply Snd; exact H.
    - destruct (nth_error (tasks s) g) as [t1|] eqn:E1; [|discriminate]. destruct (running t1) eqn:Er1; [|discriminate].
      destruct (t_queue t1); [discriminate|]. injection H as <-. apply U; [exact Et|intros ->; congruence].
    - destruct (nth_error (tasks s) g) as [t1|] eqn:E1; [|discriminate]. destruct (running t1 && _) eqn:Er1; [|discriminate].
      apply andb_true_iff in Er1. destruct Er1 as [Er1 _].
      assert (G : s' = s \/ exists x, s' = end_task s g x).
      { destruct ok; [destruct (t_receiver t1)|]; injection H as <-; eauto. }
      destruct G as [->|[x ->]]; [eauto|]. apply U; [exact Et|intros ->; congruence].
    - destruct (nth_error (tasks s) g) as [t1|] eqn:E1; [|discriminate]. destruct (running t1 && _) eqn:Er1; [|discriminate].
      apply andb_true_iff in Er1. destruct Er1 as [Er1 _]. injection H as <-. apply U; [exact Et|intros ->; congruence]. }
  intros es t Et. destruct (G es) as (t' & Et' & H). rewrite Et in Et'. injection Et' as <-. exact H.
Qed.
Print Assumptions C211_stop_lost_refuted.

(* ---- C212: the listener gives each connection to the right peer, once ---- *)
Section L.
Variable dynamic : bool.
Variable n : nat.
Variable peers : list nat.
Variable handles : list (nat * nat).
Notation lreach := (lreach dynamic n peers handles).
Notation sound := (sound_handles peers handles).
Notation arrived := (arrived n).

Theorem C212_right_peer : forall es g c, sound -> In (g, c) (l_given (lreach es)) ->
  exists k, In (k, c) (arrived es) /\ peer_for (lreach es) k g.
Proof.
  intros es g c Hs Hi. destruct (J_given _ _ _ _ _ _ (linv dynamic n peers handles es) g c Hi) as (k & H1 & H2 & _). eauto.
Qed.
(* no connection is lost or given twice *)
Theorem C212_once : forall es, Permutation (map snd (arrived es)) (everywhere (lreach es)).
Proof. intros es. exact (J_perm _ _ _ _ _ _ (linv dynamic n peers handles es)). Qed.
(* one from a registered address goes to the registered peer, unless that one ended *)
Theorem C212_delivered : forall es k c g, NoDup (map snd (arrived es)) -> In (k, c) (arrived es) ->
  find_key k handles = Some g -> ~ In g (l_ended (lreach es)) ->
  In (g, c) (l_given (lreach es)) \/ exists sk, In sk (l_sockets (lreach es)) /\ In (Conn k c) (k_backlog sk).
Proof.
  intros es k c g Hn Hi Hf He. pose proof (linv dynamic n peers handles es) as J.
  assert (U : forall k', In (k', c) (arrived es) -> k' = k).
  { intros k' Hk. clear -Hn Hi Hk. induction (arrived es) as [|[a b] l IH]; [contradiction|]. cbn in Hn. inversion Hn; subst.
    destruct Hi as [Hi|Hi], Hk as [Hk|Hk].
    - congruence.
    - injection Hi as -> ->. exfalso. apply H1. apply in_map_iff. exists (k', c). auto.
    - injection Hk as -> ->. exfalso. apply H1. apply in_map_iff. exists (k, c). auto.
    - auto. }
  assert (Hc : In c (everywhere (lreach es))).
  { eapply Permutation_in; [apply C212_once|]. apply in_map_iff. exists (k, c). auto. }
  unfold everywhere in Hc. apply in_app_or in Hc. destruct Hc as [Hc|Hc].
  - left. apply in_map_iff in Hc. destruct Hc as ([g' c'] & E & Hg). cbn in E. subst c'.
    destruct (J_given _ _ _ _ _ _ J g' c Hg) as (k' & H1 & _ & H3). rewrite (U k' H1) in H3. rewrite <- (H3 g Hf). exact Hg.
  - apply in_app_or in Hc. destruct Hc as [Hc|Hc].
    + exfalso. destruct (J_closed _ _ _ _ _ _ J c Hc) as (k' & H1 & H2). rewrite (U k' H1) in H2. exact (He (H2 g Hf)).
    + apply in_app_or in Hc. destruct Hc as [Hc|Hc].
      * exfalso. unfold held in Hc. pose proof (J_ctl _ _ _ _ _ _ J) as Ht. destruct (l_control (lreach es)) as [| |k' c' g'|]; try contradiction.
        destruct Hc as [->|[]]. destruct Ht as (_ & H2 & H3). rewrite (U k' H2) in H3. apply (J_h _ _ _ _ _ _ J) in Hf. congruence.
      * right. apply in_flat_map in Hc. destruct Hc as (sk & Hs & Hw). exists sk. split; [exact Hs|]. unfold waiting_in in Hw.
        apply in_flat_map in Hw. destruct Hw as (x & Hx & Hw). destruct x as [k' c'|]; [|contradiction]. destruct Hw as [->|[]].
        rewrite <- (U k'); [exact Hx|]. eapply (J_back _ _ _ _ _ _ J); eauto.
Qed.
(* one is dropped only if its address was not registered, or its peer has ended *)
Theorem C212_dropped : forall es c, In c (l_closed (lreach es)) ->
  exists k, In (k, c) (arrived es) /\ (find_key k handles = None \/ exists g, find_key k handles = Some g /\ In g (l_ended (lreach es))).
Proof.
  intros es c Hc. destruct (J_closed _ _ _ _ _ _ (linv dynamic n peers handles es) c Hc) as (k & H1 & H2). exists k. split; [exact H1|].
  destruct (find_key k handles) as [g|] eqn:E; [right; eauto|auto].
Qed.
(* there is at most one peer for an address *)
Theorem C212_one_peer : forall es k g g', NoDup peers -> peer_for (lreach es) k g -> peer_for (lreach es) k g' -> g = g'.
Proof.
  intros es k g g' Hn H1 H2. pose proof (J_nodup _ _ _ _ _ _ (linv dynamic n peers handles es) Hn) as N. apply NoDup_rev in N.
  unfold peer_for in *. eapply (proj1 (NoDup_nth_error _)); [exact N|eapply nth_lt; exact H1|congruence].
Qed.

(* ---- C213: waiting connections are accepted ---- *)
(* when the listener only waits, every socket it waits for is empty, and there is one *)
Theorem C213_waits_for : forall s, lquiet dynamic s -> serving s ->
  (exists i sk, nth_error (l_sockets s) i = Some sk /\ k_armed sk = true) /\
  (forall i sk, nth_error (l_sockets s) i = Some sk -> k_armed sk = true -> k_backlog sk = []).
Proof.
  intros s Q [H|H].
  - exfalso. specialize (Q Turn I). cbn [lstep] in Q. rewrite H in Q. discriminate.
  - split.
    + specialize (Q Turn I). cbn [lstep] in Q. rewrite H in Q. destruct (existsb k_armed (l_sockets s)) eqn:E; [|discriminate].
      apply existsb_exists in E. destruct E as (sk & Hs & Ha). apply In_nth_error in Hs. destruct Hs as [i Hi]. eauto.
    + intros i [b a] Hi Ha. specialize (Q (Accept i) I). cbn [lstep] in Q. rewrite H, Hi in Q. cbn in *. subst a.
      destruct b as [|[k c|] b]; [reflexivity|discriminate|discriminate].
Qed.
(* with one socket nothing waits *)
Theorem C213_nothing_waits_partial : forall es, n = 1 -> lquiet dynamic (lreach es) -> serving (lreach es) ->
  Forall (fun sk => k_backlog sk = []) (l_sockets (lreach es)).
Proof.
  intros es Hn Q S. destruct (C213_waits_for _ Q S) as ((i & sk & Hi & Ha) & H2).
  pose proof (J_len _ _ _ _ _ _ (linv dynamic n peers handles es)) as L.
  rewrite Hn in L at 2. destruct (l_sockets (lreach es)) as [|x [|y l]]; cbn in L; try discriminate. constructor; [|constructor].
  destruct i as [|i]; [|destruct i; discriminate]. cbn in Hi. injection Hi as ->. exact (H2 0 sk eq_refl Ha).
Qed.
(* and with at least one, it comes to waiting *)
Definition weight (s : lstate) : nat :=
  3 * length (flat_map k_backlog (l_sockets s)) +
  match l_control s with Head => 1 | Next => if existsb k_armed (l_sockets s) then 0 else 2 | _ => 0 end.
Lemma weight_down s e s' : l_sockets s <> [] -> internal e -> lstep dynamic s e = Some s' -> weight s' < weight s /\ l_sockets s' <> [].
Proof.
  intros Hne He H. destruct e as [| |i| |]; try contradiction; cbn [lstep] in H.
  - unfold weight. destruct (l_control s); try discriminate.
    + injection H as <-. cbn [l_sockets l_control].
      assert (E : flat_map k_backlog (map (fun k => Socket (k_backlog k) true) (l_sockets s)) = flat_map k_backlog (l_sockets s)).
      { clear. induction (l_sockets s) as [|a l IH]; [reflexivity|]. cbn. rewrite IH. reflexivity. }
      rewrite E. assert (E2 : existsb k_armed (map (fun k => Socket (k_backlog k) true) (l_sockets s)) = true) by (destruct (l_sockets s); [contradiction|reflexivity]).
      rewrite E2. split; [lia|]. destruct (l_sockets s); [contradiction|discriminate].
    + destruct (existsb k_armed (l_sockets s)); [discriminate|]. injection H as <-. cbn [l_sockets l_control with_control]. split; [lia|exact Hne].
  - destruct (l_control s) eqn:Ec; try discriminate. destruct (nth_error (l_sockets s) i) as [[[|x rest] [|]]|] eqn:Ei; try discriminate.
    assert (L : length (flat_map k_backlog (l_sockets s)) = S (length (flat_map k_backlog (upd i (fun _ => Socket rest false) (l_sockets s))))).
    { clear -Ei. revert i Ei. induction (l_sockets s) as [|a l IH]; intros i Ei; [destruct i; discriminate|]. destruct i; cbn in Ei.
      - injection Ei as ->. cbn. reflexivity.
      - cbn. rewrite !app_length, (IH i Ei). lia. }
    assert (A : forall s1, (exists x, l_sockets s1 = upd i (fun _ => Socket rest false) (l_sockets s) /\ x = l_control s1) -> weight s1 < weight s /\ l_sockets s1 <> []).
    { intros s1 (y & E & _). split.
      - unfold weight. rewrite Ec, E, L. assert (Ex : existsb k_armed (l_sockets s) = true).
        { apply existsb_exists. exists (Socket (x :: rest) true). split; [eapply nth_error_In; exact Ei|reflexivity]. }
        rewrite Ex. destruct (l_control s1); try lia. match goal with |- context [if ?b then 0 else 2] => destruct b; lia end.
      - rewrite E. intros Z. apply (f_equal (@length socket)) in Z. rewrite upd_length in Z. apply nth_lt in Ei. cbn in Z. lia. }
    destruct x as [k c|]; injection H as <-; apply A; eexists; (split; [|reflexivity]); [|reflexivity].
    unfold accept_peer_connection. cbn [l_handles]. destruct (find_key k (l_handles s)).
    + unfold give. cbn [l_ended]. destruct (has n0 (l_ended s)); reflexivity.
    + destruct (negb dynamic); [reflexivity|]. cbn [l_known]. destruct (has k (l_known s)); reflexivity.
Qed.
Theorem C213_comes_to_waiting : forall s es s', l_sockets s <> [] -> Forall internal es -> lruns dynamic s es s' ->
  length es <= 3 * length (flat_map k_backlog (l_sockets s)) + 2.
Proof.
  intros s es s' Hne F R. assert (W : length es <= weight s).
  { revert F Hne. induction R as [s|s e s1 es s2 H R IH]; intros F Hne; [cbn [length]; lia|]. inversion F; subst.
    destruct (weight_down s e s1 Hne H2 H) as [H4 H5]. specialize (IH H3 H5). cbn [length]. lia. }
  unfold weight in W. destruct (l_control s); try lia. destruct (existsb _ _); lia.
Qed.
End L.
Print Assumptions C212_right_peer.
Print Assumptions C212_once.
Print Assumptions C212_delivered.
Print Assumptions C212_dropped.
Print Assumptions C212_one_peer.
Print Assumptions C213_waits_for.
Print Assumptions C213_nothing_waits_partial.
Print Assumptions C213_comes_to_waiting.
(* with two sockets: after one connection at the first, the next there is not accepted
   until one comes at the second *)
Theorem C213_other_socket_refuted : forall dynamic, exists es,
  forall es', Forall (fun e => match e with Arrive 1 _ => False | _ => True end) es' ->
  In (5, 2) (arrived 2 es) /\ l_ended (lreach dynamic 2 [5] [(5, 0)] es) = [] /\
  l_given (lreach dynamic 2 [5] [(5, 0)] (es ++ es')) = [(0, 1)] /\
  exists sk, nth_error (l_sockets (lreach dynamic 2 [5] [(5, 0)] (es ++ es'))) 0 = Some sk /\ In (Conn 5 2) (k_backlog sk).
Proof.
  intros dynamic. exists [Turn; Arrive 0 (Conn 5 1); Accept 0; Arrive 0 (Conn 5 2)]. intros es' F. split; [cbn; auto|]. split; [reflexivity|].
  set (J := fun s => l_control s = Next /\ l_given s = [(0, 1)] /\ exists b, l_sockets s = [Socket (Conn 5 2 :: b) false; Socket [] true]).
  assert (H : J (lreach dynamic 2 [5] [(5, 0)] ([Turn; Arrive 0 (Conn 5 1); Accept 0; Arrive 0 (Conn 5 2)] ++ es'))).
  { unfold lreach. unfold lafter. rewrite fold_left_app. set (s0 := fold_left _ [Turn; _; _; _] _).
    assert (J0 : J s0) by (repeat split; eexists; reflexivity). clearbody s0. revert s0 J0.
    induction F as [|e es' He F IH]; intros s0 J0; [exact J0|]. cbn [fold_left]. apply IH. clear IH F es'.
    destruct J0 as (H1 & H2 & b & H3). unfold lafter_event. destruct (lstep dynamic s0 e) as [s1|] eqn:E; [|repeat split; eauto].
    destruct e as [i x| |i|g st|g]; cbn [lstep] in E; rewrite ?H1, ?H3 in E.
    - destruct (Nat.ltb_spec i 2) as [Hi|Hi]; cbn [length] in E.
      2:{ replace (i <? 2) with false in E by (symmetry; apply Nat.ltb_ge; lia). discriminate. }
      replace (i <? 2) with true in E by (symmetry; apply Nat.ltb_lt; lia). injection E as <-.
      destruct i as [|[|i]]; [|contradiction|lia]. repeat split; auto. cbn. eexists. reflexivity.
    - cbn in E. discriminate.
    - destruct i as [|[|i]]; cbn in E; try discriminate. destruct i; discriminate.
    - destruct (has g (l_ended s0) || _); [discriminate|]. injection E as <-. repeat split; eauto.
    - destruct (has g (l_ended s0) || _); [discriminate|]. injection E as <-. split; [reflexivity|]. split; [exact H2|]. exists b. reflexivity. }
  destruct H as (_ & H2 & b & H3). rewrite H2, H3. split; [reflexivity|]. eexists. split; [reflexivity|]. left. reflexivity.
Qed.
Print Assumptions C213_other_socket_refuted.
(* without sockets it runs in circles and never waits *)
Theorem C213_no_socket_refuted : forall dynamic peers handles m,
  exists es s, length es = m /\ Forall internal es /\ lruns dynamic (linit 0 peers handles) es s.
Proof.
  intros dynamic peers handles m. exists (repeat Turn m).
  assert (G : forall s, l_sockets s = [] -> (l_control s = Head \/ l_control s = Next) -> exists s', lruns dynamic s (repeat Turn m) s').
  { induction m as [|m IH]; intros s Hs Hc; [eexists; constructor|].
    assert (E : exists s1, lstep dynamic s Turn = Some s1 /\ l_sockets s1 = [] /\ (l_control s1 = Head \/ l_control s1 = Next)).
    { cbn [lstep]. rewrite Hs. destruct Hc as [->| ->]; cbn; (eexists; split; [reflexivity|]); cbn; auto. }
    destruct E as (s1 & E & E1 & E2). destruct (IH s1 E1 E2) as [s' R]. exists s'. cbn. econstructor; eauto. }
  destruct (G (linit 0 peers handles) eq_refl (or_introl eq_refl)) as [s R]. exists s. split; [apply repeat_length|]. split; [|exact R].
  clear. induction m; constructor; auto. exact I.
Qed.
Print Assumptions C213_no_socket_refuted.

(* ---- C214: dynamic peers ---- *)
(* an address keeps its peer *)
Theorem C214_kept : forall dynamic n peers handles es k g, find_key k (l_handles (lreach dynamic n peers handles es)) = Some g ->
  forall es', find_key k (l_handles (lreach dynamic n peers handles (es ++ es'))) = Some g.
Proof.
  intros dynamic n peers handles es k g H es'. induction es' as [|e es' IH] using rev_ind; [rewrite app_nil_r; exact H|].
  rewrite app_assoc. unfold lreach in *. rewrite lafter_app. pose proof (linv dynamic n peers handles (es ++ es')) as J. unfold lreach in J.
  set (s := lafter dynamic (linit n (rev peers) handles) (es ++ es')) in *. unfold lafter_event.
  destruct (lstep dynamic s e) as [s'|] eqn:E; [|exact IH]. clear H.
  destruct e as [i x| |i|g' st|g']; cbn [lstep] in E.
  - destruct (i <? _); [|discriminate]. injection E as <-. exact IH.
  - destruct (l_control s); try discriminate; [injection E as <-; exact IH|]. destruct (existsb _ _); [discriminate|]. injection E as <-. exact IH.
  - destruct (l_control s); try discriminate. destruct (nth_error (l_sockets s) i) as [[[|x rest] [|]]|]; try discriminate.
    destruct x as [k' c|]; injection E as <-; [|exact IH]. unfold accept_peer_connection. cbn [l_handles]. destruct (find_key k' (l_handles s)).
    + unfold give. cbn [l_ended]. destruct (has n0 (l_ended s)); exact IH.
    + destruct (negb dynamic); [exact IH|]. cbn [l_known]. destruct (has k' (l_known s)); exact IH.
  - destruct (has g' (l_ended s) || _); [discriminate|]. pose proof (J_ctl _ _ _ _ _ _ J) as Hc.
    destruct (l_control s) as [| |k' c g0|k' g0]; try (injection E as <-; exact IH); (destruct (g0 =? g'); [|injection E as <-; exact IH]).
    + injection E as <-. unfold give. destruct (has g' (l_ended s)); exact IH.
    + destruct st; injection E as <-; try exact IH. cbn [l_handles]. destruct Hc as [_ Hc]. unfold find_key in *. cbn [find fst].
      destruct (Nat.eqb_spec k' k) as [->|]; [congruence|exact IH].
  - destruct (has g' (l_ended s) || _); [discriminate|].
    destruct (l_control s) as [| |k' c g0|k' g0]; try (injection E as <-; exact IH); (destruct (g0 =? g'); [|injection E as <-; exact IH]).
    + injection E as <-. unfold give. cbn [l_ended]. destruct (has g' (g' :: l_ended s)); exact IH.
    + injection E as <-. exact IH.
Qed.
Print Assumptions C214_kept.
(* a dynamic peer that comes to OpenConfirm is then the peer of its address *)
Theorem C214_joined : forall dynamic n peers handles es k g, l_control (lreach dynamic n peers handles es) = Outcome k g ->
  ~ In g (l_ended (lreach dynamic n peers handles es)) ->
  forall es', find_key k (l_handles (lreach dynamic n peers handles (es ++ Report g OpenConfirm :: es'))) = Some g.
Proof.
  intros dynamic n peers handles es k g Hc He es'. change (Report g OpenConfirm :: es') with ([Report g OpenConfirm] ++ es'). rewrite app_assoc.
  apply C214_kept. unfold lreach in *. rewrite lafter_app. pose proof (linv dynamic n peers handles es) as J. unfold lreach in J.
  set (s := lafter dynamic (linit n (rev peers) handles) es) in *. unfold lafter_event. cbn [lstep].
  replace (has g (l_ended s)) with false by (symmetry; apply has_nIn; exact He).
  pose proof (J_ctl _ _ _ _ _ _ J) as Ht. rewrite Hc in Ht. destruct Ht as [Hp _]. unfold peer_for in Hp. apply nth_lt in Hp. rewrite rev_length in Hp.
  rewrite (J_next _ _ _ _ _ _ J). replace (g <? length (l_known s)) with true by (symmetry; apply Nat.ltb_lt; exact Hp). cbn [orb negb].
  rewrite Hc, Nat.eqb_refl. cbn [l_handles]. unfold find_key. cbn. rewrite Nat.eqb_refl. reflexivity.
Qed.
Print Assumptions C214_joined.
(* while a dynamic peer says nothing, no connection of anyone is accepted *)
Theorem C214_blocked_refuted : exists es, let s := lreach true 1 [5] [(5, 0)] es in
  In (5, 2) (arrived 1 es) /\ In (5, 0) (l_handles s) /\ l_ended s = [] /\
  forall es', Forall (fun e => match e with Report 1 _ | PeerEnds 1 => False | _ => True end) es' ->
  l_given (lreach true 1 [5] [(5, 0)] (es ++ es')) = [] /\ l_closed (lreach true 1 [5] [(5, 0)] (es ++ es')) = [].
Proof.
  exists [Turn; Arrive 0 (Conn 6 1); Accept 0; Arrive 0 (Conn 5 2)]. cbv zeta. split; [cbn; auto|]. split; [cbn; auto|]. split; [reflexivity|]. intros es' F.
  set (J := fun s => l_control s = First 6 1 1 /\ l_given s = [] /\ l_closed s = []).
  assert (H : J (lreach true 1 [5] [(5, 0)] ([Turn; Arrive 0 (Conn 6 1); Accept 0; Arrive 0 (Conn 5 2)] ++ es'))).
  { unfold lreach, lafter. rewrite fold_left_app. set (s0 := fold_left _ [Turn; _; _; _] _).
    assert (J0 : J s0) by (repeat split). clearbody s0. revert s0 J0.
    induction F as [|e es' He F IH]; intros s0 J0; [exact J0|]. cbn [fold_left]. apply IH. clear IH F es'.
    destruct J0 as (H1 & H2 & H3). unfold lafter_event. destruct (lstep true s0 e) as [s1|] eqn:E; [|repeat split; auto].
    destruct e as [i x| |i|g st|g]; cbn [lstep] in E; rewrite ?H1 in E; try discriminate.
    - destruct (i <? _); [|discriminate]. injection E as <-. repeat split; auto.
    - destruct (has g (l_ended s0) || _); [discriminate|]. destruct (Nat.eqb_spec 1 g) as [<-|]; [contradiction|]. injection E as <-. repeat split; auto.
    - destruct (has g (l_ended s0) || _); [discriminate|]. destruct (Nat.eqb_spec 1 g) as [<-|]; [contradiction|]. injection E as <-. repeat split; auto. }
  destruct H as (_ & H2 & H3). auto.
Qed.
Print Assumptions C214_blocked_refuted.
(* after one failed attempt an address is never served again *)
Theorem C214_no_second_try_refuted : exists es,
  forall es' g c, peer_for (lreach true 1 [] [] (es ++ es')) 5 g -> In (g, c) (l_given (lreach true 1 [] [] (es ++ es'))) -> In (5, c) (arrived 1 es).
Proof.
  exists [Turn; Arrive 0 (Conn 5 1); Accept 0; Report 0 Active; Report 0 Idle; PeerEnds 0]. intros es' g c Hp Hi.
  set (es := [Turn; Arrive 0 (Conn 5 1); Accept 0; Report 0 Active; Report 0 Idle; PeerEnds 0]) in *.
  set (J := fun s => nth_error (rev (l_known s)) 0 = Some 5 /\ In 0 (l_ended s) /\ In (0, 1) (l_given s) /\ (forall c, In (0, c) (l_given s) -> c = 1)).
  assert (H : forall es', J (lreach true 1 [] [] (es ++ es'))).
  { clear. intros es'. induction es' as [|e es' IH] using rev_ind.
    - rewrite app_nil_r. repeat split; cbn; auto. intros c [H|[]]. congruence.
    - rewrite app_assoc. unfold lreach in *. rewrite lafter_app. unfold lafter_event.
      set (s := lafter true (linit 1 (rev []) []) (es ++ es')) in *.
      destruct (lstep true s e) as [s'|] eqn:E; [|exact IH]. destruct IH as (H1 & H2 & H3 & H4).
      assert (G : forall s0 g0 c0, J s0 -> J (give s0 g0 c0)).
      { intros s0 g0 c0 (G1 & G2 & G3 & G4). unfold give. destruct (has g0 (l_ended s0)) eqn:Eh; [repeat split; auto|]. repeat split; auto; cbn.
        - apply in_or_app. auto.
        - intros c1 Hc. apply in_app_or in Hc. destruct Hc as [Hc|[Hc|[]]]; [auto|]. injection Hc as -> ->. apply has_nIn in Eh. contradiction. }
      destruct e as [i x| |i|g' st|g']; cbn [lstep] in E.
      + destruct (i <? _); [|discriminate]. injection E as <-. repeat split; auto.
      + destruct (l_control s); try discriminate; [injection E as <-; repeat split; auto|]. destruct (existsb _ _); [discriminate|]. injection E as <-. repeat split; auto.
      + destruct (l_control s); try discriminate. destruct (nth_error (l_sockets s) i) as [[[|x rest] [|]]|]; try discriminate.
        destruct x as [k' c|]; injection E as <-; [|repeat split; auto]. unfold accept_peer_connection. cbn [l_handles]. destruct (find_key k' (l_handles s)).
        * apply G. repeat split; auto.
        * cbn [negb l_known]. destruct (has k' (l_known s)); [repeat split; auto|]. repeat split; auto. cbn [l_known]; apply nth_rev_mono. exact H1.
      + destruct (has g' (l_ended s) || _); [discriminate|].
        destruct (l_control s) as [| |k' c g0|k' g0]; try (injection E as <-; repeat split; auto; fail); (destruct (g0 =? g'); [|injection E as <-; repeat split; auto; fail]).
        * injection E as <-. assert (Gs : J (give s g' c)) by (apply G; repeat split; auto). exact Gs.
        * destruct st; injection E as <-; repeat split; auto.
      + destruct (has g' (l_ended s) || _); [discriminate|]. set (s1 := LState _ _ _ _ _ _ _ _) in *.
        assert (J1 : J s1) by (repeat split; auto; right; exact H2).
        destruct (l_control s) as [| |k' c g0|k' g0]; try (injection E as <-; exact J1); (destruct (g0 =? g'); [|injection E as <-; exact J1]).
        * injection E as <-. assert (Gs : J (give s1 g' c)) by (apply G; exact J1). exact Gs.
        * injection E as <-. exact J1. }
  assert (g = 0).
  { eapply (C212_one_peer true 1 [] [] (es ++ es') 5); [constructor|exact Hp|]. apply H. }
  subst g. destruct (H es') as (_ & _ & _ & H4). rewrite (H4 c Hi). cbn. auto.
Qed.
Print Assumptions C214_no_second_try_refuted.

(* ---- the premises are met ---- *)
Example C209_nonvacuous : let s := after init [Create 1; Create 2; Remove 1; Create 1] in
  registered s = [(1, 2); (2, 1)] /\ step s (Create 2) = None /\ step s (Create 3) <> None.
Proof. repeat split. lazy. discriminate. Qed.
Example C210_nonvacuous : exists es, let s := after init es in
  quiet s /\ result_of s 1 = Some (Answer [0]) /\ result_of s 2 = Some Accepted /\ result_of s 3 = Some SendError /\
  result_of s 4 = Some (Answer []) /\ accepted s 0 = [0; 1; 2] /\ accepted s 1 = [4].
Proof.
  exists [Create 7; Send 0 Start; Send 0 Query; Work 0; Work 0; Send 0 Stop; Work 0; Session 0 false; Send 0 Query; Create 8; Send 1 Query; Work 1].
  split; [|repeat split]. intros [|[|g]]; [reflexivity|reflexivity|]. lazy; destruct g; reflexivity.
Qed.
Example C211_nonvacuous : exists es es' s1 t, let s := after init es in
  In (7, 0) (registered s) /\ step s (Remove 7) = Some s1 /\ quiet (after s1 es') /\
  nth_error (tasks (after s1 es')) 0 = Some t /\ t_controller t = true /\ t_handled t = [0; 1] /\ t_end t = None.
Proof.
  exists [Create 7; Send 0 Start], [Work 0; Work 0]. do 2 eexists. cbv zeta. split; [left; reflexivity|]. split; [reflexivity|].
  split; [|repeat split]. intros [|g]; [reflexivity|]. lazy; destruct g; reflexivity.
Qed.
Definition two_known : list levent := [Turn; Arrive 0 (Conn 5 1); Arrive 0 (Conn 6 2); Arrive 0 (Conn 7 3); Accept 0; Turn; Turn; Accept 0; Turn; Turn; Accept 0].
Example C212_nonvacuous : sound_handles [5; 6] [(5, 0); (6, 1)] /\ NoDup [5; 6] /\ NoDup (map snd (arrived 1 two_known)) /\
  l_given (lreach false 1 [5; 6] [(5, 0); (6, 1)] two_known) = [(0, 1); (1, 2)] /\
  l_closed (lreach false 1 [5; 6] [(5, 0); (6, 1)] two_known) = [3].
Proof.
  split; [|split; [|split; [|split; reflexivity]]].
  - intros k g [H|[H|[]]]; injection H as <- <-; reflexivity.
  - repeat constructor; cbn; intuition discriminate.
  - repeat constructor; cbn; intuition discriminate.
Qed.
Example C213_nonvacuous : exists es, let s := lreach true 1 [5; 6] [(5, 0); (6, 1)] (two_known ++ es) in
  lquiet true s /\ serving s /\ l_given s = [(0, 1); (1, 2); (2, 3)].
Proof.
  exists [Report 2 Connect; Report 2 Idle; Turn; Turn]. cbv zeta. split; [|split; [right; reflexivity|reflexivity]].
  intros [i x| |i|g st|g] H; try contradiction; [reflexivity|]. lazy; destruct i as [|[|i]]; reflexivity.
Qed.
Example C214_nonvacuous : let s := lreach true 1 [5; 6] [(5, 0); (6, 1)] (two_known ++ [Report 2 Connect; Report 2 OpenSent]) in
  l_control s = Outcome 7 2 /\ l_ended s = [] /\ peer_for s 7 2.
Proof. repeat split. Qed.
(* the address that failed once: later connections are dropped *)
Example C214_second_dropped : l_closed (lreach true 1 [] [] [Turn; Arrive 0 (Conn 5 1); Accept 0; Report 0 Active; Report 0 Idle; PeerEnds 0; Turn; Turn; Arrive 0 (Conn 5 2); Accept 0]) = [2].
Proof. reflexivity. Qed.
