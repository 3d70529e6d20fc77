(* The table of connections, the end of a connection and the stop of the service. *)
From Coq Require Import List NArith Bool Lia Arith Permutation.
From Verif Require Import BsModel BsSpec BsProofs.
Import ListNotations.
Local Open Scope N_scope.

Section Actor.
Variable hash : N -> N.
Notation state := (state hash).
Notation step := (step hash).

Lemma upd_same l t (x : task) : nth_error l t = Some x -> upd l t x = l.
Proof. intros H. unfold upd. symmetry. now apply in_split_nth. Qed.

(* ---------------- what a task's own step does ---------------- *)
Definition has_room (a : actor) (e : event) : Prop :=
  match e with Notice _ => (length (a_closed a) < closed_capacity)%nat | _ => True end.
Record moved (e : event) (a a' : actor) (t : nat) (x x' : task) : Prop := {
  v_tasks : a_tasks a' = upd (a_tasks a) t x';
  v_addr : t_addr x' = t_addr x;
  v_abort : t_abort x' = t_abort x;
  v_live : live x' -> live x;
  v_gone : t_phase x = Gone -> t_phase x' = Gone;
  v_crashed : t_phase x = Crashed -> t_phase x' = Crashed;
  v_closed : a_closed a' = a_closed a \/ a_closed a' = a_closed a ++ [t_addr x];
  v_notice : t_phase x' = Gone -> t_phase x <> Gone -> t_abort x = false -> a_down a = false ->
    has_room a e -> a_closed a' = a_closed a ++ [t_addr x];
  v_log : a_log a' = a_log a \/ exists o, a_log a' = a_log a ++ [o] /\ o_task o = t /\ live x
}.
Lemma moved_task_step a t x e : nth_error (a_tasks a) t = Some x -> exists x', moved e a (task_step hash a t x e) t x x'.
Proof.
  intros Hx. assert (Hid : moved e a a t x x).
  { constructor; auto; [symmetry; now apply upd_same|intros; contradiction]. }
  assert (Hset : forall y, t_addr y = t_addr x -> t_abort y = t_abort x -> live x -> (t_phase y = Gone -> t_abort x = true) ->
    moved e a (set_task a t y) t x y).
  { intros y E1 E2 E3 E4. constructor; cbn [set_task a_tasks a_closed a_log]; auto.
    - intros E. unfold live in E3. rewrite E in E3. destruct E3.
    - intros E. unfold live in E3. rewrite E in E3. destruct E3.
    - intros E _ E'. rewrite (E4 E) in E'. discriminate. }
  unfold task_step. cbv zeta.
  destruct e as [senders|id|addr| | | |addr|?|? m|? i ok|?|?|?]; try (now exists x); destruct (t_phase x) as [|seq m0 pending| | |] eqn:Ep; try (now exists x);
    assert (Hl : t_phase x = Closing \/ live x) by (unfold live; rewrite Ep; auto).
  - destruct Hl as [Hl|Hl]; [congruence|]. destruct (Nat.eqb _ 0); [destruct (a_down a); [|now exists x]|destruct (Nat.ltb _ _)];
      eexists; apply Hset; auto; cbn; discriminate.
  - destruct Hl as [Hl|Hl]; [congruence|]. eexists; apply Hset; auto; cbn; discriminate.
  - destruct Hl as [Hl|Hl]; [congruence|]. destruct (nth_error pending i) as [[s senders]|].
    + destruct (pick hash (t_addr x) senders) as [c|].
      * eexists. destruct (Hset (with_phase x (Sending seq m0 (firstn i pending ++ skipn (S i) pending)))) as [A1 A2 A3 A4 A5 A6 A7 A8 A9]; auto; [discriminate|].
        constructor; cbn [a_tasks a_closed a_log set_task]; eauto.
      * eexists; apply Hset; auto; cbn; discriminate.
    + destruct pending; [|now exists x]. eexists; apply Hset; auto; cbn; discriminate.
  - destruct Hl as [Hl|Hl]; [congruence|]. destruct (t_abort x) eqn:Eb; [|now exists x]. eexists; apply Hset; auto.
  - destruct Hl as [Hl|Hl]; [congruence|]. destruct (t_abort x) eqn:Eb; [|now exists x]. eexists; apply Hset; auto.
  - destruct Hl as [Hl|Hl]; [congruence|]. eexists; apply Hset; auto; cbn; discriminate.
  - exists (with_phase x Gone). destruct (a_down (set_task a t (with_phase x Gone)) || Nat.leb closed_capacity (length (a_closed (set_task a t (with_phase x Gone))))) eqn:Ef;
      constructor; cbn [set_task with_phase a_tasks a_closed a_log t_addr t_abort t_phase live]; auto; try congruence.
    + intros [].
    + intros _ _ _ Hd Hc. cbn [has_room] in Hc. cbn [set_task a_down a_closed] in Ef. rewrite Hd in Ef. cbn [orb] in Ef. apply Nat.leb_le in Ef. lia.
    + intros [].
Qed.

(* ---------------- how tasks and log evolve ---------------- *)
Definition evolves (x x' : task) : Prop :=
  t_addr x' = t_addr x /\ (t_abort x = true -> t_abort x' = true) /\ (live x' -> live x) /\
  (t_phase x = Gone -> t_phase x' = Gone) /\ (t_phase x = Crashed -> t_phase x' = Crashed).
Lemma evolves_refl x : evolves x x. Proof. repeat split; auto. Qed.
Lemma evolves_trans x y z : evolves x y -> evolves y z -> evolves x z.
Proof. intros (A1 & A2 & A3 & A4 & A5) (B1 & B2 & B3 & B4 & B5). repeat split; auto; congruence. Qed.
Definition later (a a' : actor) : Prop :=
  (forall t x, nth_error (a_tasks a) t = Some x -> exists x', nth_error (a_tasks a') t = Some x' /\ evolves x x') /\
  exists ext, a_log a' = a_log a ++ ext /\
    forall o, In o ext -> forall x, nth_error (a_tasks a) (o_task o) = Some x -> live x.
Lemma later_refl a : later a a.
Proof. split; [intros t x H; exists x; split; [exact H|apply evolves_refl]|]. exists []. rewrite app_nil_r. split; [reflexivity|intros o []]. Qed.
Lemma later_trans a b c : later a b -> later b c -> later a c.
Proof.
  intros (A1 & e1 & A2 & A3) (B1 & e2 & B2 & B3). split.
  - intros t x Hx. destruct (A1 t x Hx) as (y & Hy & Exy). destruct (B1 t y Hy) as (z & Hz & Eyz). exists z. split; [exact Hz|]. eapply evolves_trans; eassumption.
  - exists (e1 ++ e2). split; [rewrite B2, A2; now rewrite app_assoc|]. intros o Ho x Hx. apply in_app_or in Ho as [Ho|Ho]; [eauto|].
    destruct (A1 _ x Hx) as (y & Hy & (_ & _ & El & _)). apply El. eapply B3; eassumption.
Qed.
Lemma abort_nth a t u x : nth_error (a_tasks a) u = Some x ->
  nth_error (a_tasks (abort_task a t)) u = Some (if Nat.eqb u t then abort x else x).
Proof.
  intros Hx. unfold abort_task. destruct (nth_error (a_tasks a) t) as [y|] eqn:Ey.
  - rewrite set_task_tasks, nth_upd by (now apply nth_lt in Ey). destruct (Nat.eqb_spec u t) as [-> |_]; [|exact Hx]. congruence.
  - destruct (Nat.eqb_spec u t) as [-> |_]; [congruence|exact Hx].
Qed.
Lemma abort_nth_inv a t u y : nth_error (a_tasks (abort_task a t)) u = Some y ->
  exists x, nth_error (a_tasks a) u = Some x /\ y = if Nat.eqb u t then abort x else x.
Proof.
  intros Hy. destruct (nth_error (a_tasks a) u) as [x|] eqn:Ex.
  - rewrite (abort_nth _ _ _ _ Ex) in Hy. injection Hy as <-. eauto.
  - apply nth_error_None in Ex. apply nth_lt in Hy. destruct (abort_frame a t) as (_ & _ & _ & _ & _ & _ & _ & El). lia.
Qed.
Lemma evolves_abort x : evolves x (abort x).
Proof. repeat split; auto. Qed.
Lemma later_abort a t : later a (abort_task a t).
Proof.
  split.
  - intros u x Hx. eexists. split; [apply abort_nth; exact Hx|]. destruct (Nat.eqb u t); [apply evolves_abort|apply evolves_refl].
  - destruct (abort_frame a t) as (_ & _ & _ & _ & _ & _ & El & _). exists []. rewrite app_nil_r. split; [exact El|intros o []].
Qed.
Lemma later_aborts l a : later a (fold_left abort_task l a).
Proof. revert a. induction l as [|t l IH]; intros a; [apply later_refl|]. cbn. eapply later_trans; [apply later_abort|apply IH]. Qed.
Lemma later_same a a' : a_tasks a' = a_tasks a -> a_log a' = a_log a -> later a a'.
Proof.
  intros E1 E2. split; [intros t x H; exists x; split; [now rewrite E1|apply evolves_refl]|].
  exists []. rewrite app_nil_r. split; [exact E2|intros o []].
Qed.
Lemma later_step a e : later a (fst (step a e)).
Proof.
  unfold BsModel.step. destruct (event_task e) as [t|] eqn:Et.
  - cbn [fst]. destruct (nth_error (a_tasks a) t) as [x|] eqn:Ex; [|apply later_refl].
    destruct (moved_task_step a t x e Ex) as (x' & [A1 A2 A3 A4 A5 A6 A7 A8 A9]). split.
    + intros u y Hy. rewrite A1, nth_upd by (now apply nth_lt in Ex). destruct (Nat.eqb_spec u t) as [-> |_].
      * exists x'. split; [reflexivity|]. assert (y = x) by congruence. subst y. repeat split; auto; congruence.
      * exists y. split; [exact Hy|apply evolves_refl].
    + destruct A9 as [El|(o & El & Eo & Hl)]; rewrite El.
      * exists []. rewrite app_nil_r. split; [reflexivity|intros o []].
      * exists [o]. split; [reflexivity|]. intros o' [<-|[]] y Hy. rewrite Eo, Ex in Hy. now injection Hy as <-.
  - destruct (a_down a); [apply later_refl|].
    destruct e as [senders|id|addr| | | |addr|u|u m|u i ok|u|u|u]; try discriminate Et; cbv zeta; cbn [fst]; try (apply later_same; reflexivity).
    + destruct (table_get (a_table a) addr); cbn [fst]; [|apply later_refl].
      eapply later_trans; [|apply later_abort]. apply later_same; reflexivity.
    + eapply later_trans; [apply (later_aborts (map snd (a_table a)))|]. apply later_same; reflexivity.
    + destruct (a_closed a); cbn [fst]; [apply later_refl|apply later_same; reflexivity].
    + assert (Hb : later a (match table_get (a_table a) addr with Some t => abort_task a t | None => a end)).
      { destruct (table_get (a_table a) addr); [apply later_abort|apply later_refl]. }
      eapply later_trans; [exact Hb|]. split.
      * intros t x Hx. exists x. cbn [a_tasks]. split; [|apply evolves_refl]. rewrite nth_error_app1; [exact Hx|]. now apply nth_lt in Hx.
      * exists []. rewrite app_nil_r. split; [reflexivity|intros o []].
Qed.
Lemma later_run a es : later a (fst (run hash a es)).
Proof.
  revert a. induction es as [|e es IH]; intros a; [apply later_refl|]. cbn [run].
  pose proof (later_step a e) as H. destruct (step a e) as [b x]. specialize (IH b). destruct (run hash b es) as [c xs]. cbn [fst] in *.
  eapply later_trans; eassumption.
Qed.
Lemma state_app es fs : state (es ++ fs) = fst (run hash (state es) fs).
Proof. unfold BsSpec.state. apply run_app. Qed.
Lemma later_state es fs : later (state es) (state (es ++ fs)).
Proof. rewrite state_app. apply later_run. Qed.

(* ---------------- the table ---------------- *)
Lemma table_get_some tb addr t : NoDup (map fst tb) -> table_get tb addr = Some t <-> In (addr, t) tb.
Proof.
  intros Hnd. unfold table_get. induction tb as [|[j r] m IH]; [split; [discriminate|intros []]|]. cbn [find fst].
  inversion Hnd as [|? ? Hn Hd]; subst. destruct (N.eqb_spec j addr) as [-> |Hne]; cbn [option_map snd In].
  - split; [intros H; injection H as <-; now left|]. intros [H|H]; [now injection H as <-|]. destruct Hn. apply (in_map fst) in H. exact H.
  - rewrite (IH Hd). split; [now right|]. intros [H|H]; [congruence|exact H].
Qed.
Lemma table_get_none tb addr : table_get tb addr = None <-> ~ In addr (map fst tb).
Proof.
  unfold table_get. induction tb as [|[j r] m IH]; [split; [intros _ []|reflexivity]|]. cbn [find fst map In].
  destruct (N.eqb_spec j addr) as [-> |Hne]; cbn [option_map snd In].
  - split; [discriminate|]. intros H. destruct H. now left.
  - rewrite IH. split; intros H; [intros [E|Hi]; [congruence|contradiction]|]. intros Hi. apply H. now right.
Qed.
Lemma in_table_del tb addr a t : In (a, t) (table_del tb addr) <-> In (a, t) tb /\ a <> addr.
Proof. unfold table_del. rewrite filter_In. cbn [fst]. rewrite negb_true_iff, N.eqb_neq. reflexivity. Qed.
Lemma table_del_keys tb addr : NoDup (map fst tb) -> NoDup (map fst (table_del tb addr)).
Proof.
  unfold table_del. induction tb as [|e m IH]; [constructor|]. intros H. inversion H as [|? ? Hn Hd]; subst. cbn.
  destruct (negb (fst e =? addr)); [|auto]. cbn. constructor; [|auto]. intros Hin. apply Hn. apply in_map_iff in Hin as (f & E & Hf).
  apply filter_In in Hf as [Hf _]. rewrite <- E. now apply in_map.
Qed.
Record table_ok (a : actor) : Prop := {
  b_keys : NoDup (map fst (a_table a));
  b_entry : forall addr t, In (addr, t) (a_table a) ->
    exists x, nth_error (a_tasks a) t = Some x /\ t_addr x = addr /\ wanted x;
  b_down : a_down a = true -> a_table a = []
}.
(* every connection that is served and not asked to end is in the table *)
Definition complete (a : actor) : Prop :=
  forall t x, nth_error (a_tasks a) t = Some x -> live x -> wanted x -> a_down a = false /\ In (t_addr x, t) (a_table a).
(* entries of connections that are over have their notice on the way *)
Definition noticed (a : actor) : Prop :=
  forall addr t x, In (addr, t) (a_table a) -> nth_error (a_tasks a) t = Some x -> t_phase x = Gone -> In addr (a_closed a).
Definition timely (a : actor) (e : event) : Prop :=
  match e, a_closed a with
  | TakeClosed, addr :: _ => forall x, In x (a_tasks a) -> t_addr x = addr -> wanted x -> ~ live x
  | _, _ => True
  end.
Lemma aborts_nth l a u x : nth_error (a_tasks a) u = Some x ->
  nth_error (a_tasks (fold_left abort_task l a)) u = Some (if existsb (Nat.eqb u) l then abort x else x).
Proof.
  revert a x. induction l as [|t l IH]; intros a x Hx; [exact Hx|]. cbn [fold_left existsb].
  rewrite (IH _ _ (abort_nth a t u x Hx)). destruct (Nat.eqb u t); [|reflexivity]. cbn [orb]. destruct (existsb _ l); reflexivity.
Qed.
Lemma aborts_nth_inv l a u y : nth_error (a_tasks (fold_left abort_task l a)) u = Some y ->
  exists x, nth_error (a_tasks a) u = Some x /\ y = if existsb (Nat.eqb u) l then abort x else x.
Proof.
  intros Hy. destruct (nth_error (a_tasks a) u) as [x|] eqn:Ex.
  - rewrite (aborts_nth _ _ _ _ Ex) in Hy. injection Hy as <-. eauto.
  - apply nth_error_None in Ex. apply nth_lt in Hy. destruct (aborts_frame l a) as (_ & _ & _ & _ & _ & El). lia.
Qed.
Lemma table_step a e : table_ok a ->
  table_ok (fst (step a e)) /\ (complete a -> timely a e -> complete (fst (step a e))) /\
  (noticed a -> has_room a e -> noticed (fst (step a e))).
Proof.
  intros [T1 T2 T3]. unfold BsModel.step. destruct (event_task e) as [t|] eqn:Et.
  - cbn [fst]. destruct (nth_error (a_tasks a) t) as [x|] eqn:Ex; [|split; [constructor; auto|split; auto]].
    destruct (moved_task_step a t x e Ex) as (x' & [A1 A2 A3 A4 A5 A6 A7 A8 A9]).
    destruct (task_step_frame hash a t x e) as (_ & _ & _ & Ft & Fd). pose proof (nth_lt _ _ _ Ex) as Hlt.
    split; [constructor|split].
    + now rewrite Ft.
    + rewrite Ft. intros addr u Hin. destruct (T2 addr u Hin) as (y & Hy & Ey & Wy). rewrite A1, nth_upd by exact Hlt.
      destruct (Nat.eqb_spec u t) as [-> |_]; [|now exists y]. exists x'. assert (y = x) by congruence. subst y.
      split; [reflexivity|]. split; [congruence|]. unfold wanted in *. congruence.
    + rewrite Ft, Fd. exact T3.
    + intros C _ u y Hy Hl Hw. rewrite Fd, Ft. rewrite A1, nth_upd in Hy by exact Hlt. destruct (Nat.eqb_spec u t) as [-> |_].
      * injection Hy as <-. rewrite A2. apply (C t x Ex (A4 Hl)). unfold wanted in *. congruence.
      * exact (C u y Hy Hl Hw).
    + intros N0 Hr addr u y. rewrite Ft, A1, nth_upd by exact Hlt. intros Hin Hy Hg.
      assert (Hkeep : In addr (a_closed a) -> In addr (a_closed (task_step hash a t x e))).
      { intros Hi. destruct A7 as [-> | ->]; [exact Hi|apply in_or_app; now left]. }
      destruct (Nat.eqb_spec u t) as [-> |_]; [|apply Hkeep; eapply N0; eassumption].
      injection Hy as <-. destruct (T2 addr t Hin) as (y & Hy & Ey & Wy). assert (y = x) by congruence. subst y.
      assert (Hg' : t_phase x = Gone \/ t_phase x <> Gone) by (destruct (t_phase x); auto; right; discriminate).
      destruct Hg' as [Hg'|Hg']; [apply Hkeep; eapply N0; eassumption|].
      rewrite (A8 Hg Hg' Wy); [apply in_or_app; right; now left| |exact Hr].
      destruct (a_down a); [rewrite (T3 eq_refl) in Hin; destruct Hin|reflexivity].
  - destruct (a_down a) eqn:Ed; [cbn [fst]; split; [constructor; auto; congruence|split; auto]|].
    assert (Hlook : forall addr, table_get (a_table a) addr = None -> table_del (a_table a) addr = a_table a).
    { intros addr Hn. apply table_get_none in Hn. unfold table_del. clear T1 T2 T3. induction (a_table a) as [|p r IH]; [reflexivity|]. cbn in *.
      destruct (N.eqb_spec (fst p) addr) as [E|E]; [destruct Hn; now left|]. cbn. f_equal. apply IH. intros H. apply Hn. now right. }
    (* taking one peer out of the table and asking its connection to end *)
    assert (Hout : forall addr t b, table_get (a_table a) addr = Some t -> a_tasks b = a_tasks (abort_task a t) ->
      (forall ad u, In (ad, u) (table_del (a_table a) addr) -> exists x, nth_error (a_tasks b) u = Some x /\ t_addr x = ad /\ wanted x) /\
      (complete a -> forall u x, nth_error (a_tasks b) u = Some x -> live x -> wanted x -> In (t_addr x, u) (table_del (a_table a) addr)) /\
      (forall ad u x, In (ad, u) (table_del (a_table a) addr) -> nth_error (a_tasks b) u = Some x -> nth_error (a_tasks a) u = Some x)).
    { intros addr t b Hg Hb. apply (table_get_some _ _ _ T1) in Hg.
      assert (Hne : forall ad u, In (ad, u) (table_del (a_table a) addr) -> u <> t).
      { intros ad u Hin ->. apply in_table_del in Hin as [Hin Hn]. destruct (T2 _ _ Hin) as (x & Hx & Ex & _).
        destruct (T2 _ _ Hg) as (y & Hy & Ey & _). congruence. }
      split; [|split].
      - intros ad u Hin. pose proof (Hne _ _ Hin) as Hn. apply in_table_del in Hin as [Hin _]. destruct (T2 _ _ Hin) as (x & Hx & Ex & Wx).
        exists x. rewrite Hb, (abort_nth _ _ _ _ Hx). destruct (Nat.eqb_spec u t); [contradiction|]. auto.
      - intros C u x Hx Lx Wx. rewrite Hb in Hx. apply abort_nth_inv in Hx as (y & Hy & Ey). destruct (Nat.eqb_spec u t) as [-> |Hn]; [subst x; discriminate Wx|].
        subst x. destruct (C u y Hy Lx Wx) as [_ Hin]. apply in_table_del. split; [exact Hin|]. intros E. rewrite E in Hin.
        apply Hn. apply (table_get_some _ _ _ T1) in Hin, Hg. congruence.
      - intros ad u x Hin Hx. rewrite Hb in Hx. apply abort_nth_inv in Hx as (y & Hy & Ey). pose proof (Hne _ _ Hin) as Hn.
        destruct (Nat.eqb_spec u t); [contradiction|]. congruence. }
    destruct e as [senders|id|addr| | | |addr|u|u m|u i ok|u|u|u]; try discriminate Et; cbv zeta; cbn [fst].
    + split; [constructor; cbn; auto; congruence|]. split; [|auto]. intros C _ t x Hx Hl Hw. destruct (C t x Hx Hl Hw). now split.
    + split; [constructor; cbn; auto; congruence|]. split; [|auto]. intros C _ t x Hx Hl Hw. destruct (C t x Hx Hl Hw). now split.
    + (* Disconnect *)
      destruct (table_get (a_table a) addr) as [t|] eqn:Eg; cbn [fst].
      2:{ split; [now constructor; auto; congruence|]. split; auto. }
      destruct (Hout addr t (abort_task (with_table a (table_del (a_table a) addr)) t) Eg) as (O1 & O2 & O3).
      { unfold abort_task. cbn [with_table a_tasks]. destruct (nth_error (a_tasks a) t); reflexivity. }
      destruct (abort_frame (with_table a (table_del (a_table a) addr)) t) as (_ & _ & _ & Ft & Fd & Fc & _). cbn [with_table a_table a_down a_closed] in Ft, Fd, Fc.
      split; [constructor|split].
      * rewrite Ft. now apply table_del_keys.
      * rewrite Ft. exact O1.
      * rewrite Fd. congruence.
      * intros C _ u x Hx Hl Hw. rewrite Fd, Ft. split; [exact Ed|]. now apply O2.
      * intros N0 _ ad u x Hin Hx Hgx. rewrite Ft in Hin. rewrite Fc. pose proof (O3 ad u x Hin Hx) as Hx'. apply in_table_del in Hin as [Hin _].
        eapply N0; eassumption.
    + split; [now constructor; auto; congruence|]. split; auto.
    + (* Shutdown *)
      split; [constructor; cbn; auto; [constructor|intros ? ? []]|split].
      * intros C _ u x Hx Hl Hw. cbn [a_tasks] in Hx. apply aborts_nth_inv in Hx as (y & Hy & Ey).
        destruct (existsb (Nat.eqb u) (map snd (a_table a))) eqn:Ee; subst x; [discriminate Hw|].
        destruct (C u y Hy Hl Hw) as [_ Hin]. apply (in_map snd) in Hin. cbn in Hin.
        assert (existsb (Nat.eqb u) (map snd (a_table a)) = true) by (apply existsb_exists; exists u; split; [exact Hin|apply Nat.eqb_refl]). congruence.
      * intros _ _ ad u x [].
    + (* TakeClosed *)
      destruct (a_closed a) as [|ad r] eqn:Ec; cbn [fst]; [split; [now constructor; auto; congruence|split; auto]|].
      split; [constructor; cbn [a_table a_tasks a_down]|split].
      * now apply table_del_keys.
      * intros ad' u Hin. apply in_table_del in Hin as [Hin _]. auto.
      * congruence.
      * intros C Ht u x Hx Hl Hw. unfold timely in Ht. rewrite Ec in Ht. cbn [a_tasks a_table a_down] in *. split; [reflexivity|].
        destruct (C u x Hx Hl Hw) as [_ Hin]. apply in_table_del. split; [exact Hin|]. intros E.
        exact (Ht x (nth_error_In _ _ Hx) E Hw Hl).
      * intros N0 _ ad' u x Hin Hx Hg. cbn [a_table a_tasks a_closed] in *. apply in_table_del in Hin as [Hin Hne].
        pose proof (N0 ad' u x Hin Hx Hg) as Hi. rewrite Ec in Hi. destruct Hi as [E|Hi]; [congruence|exact Hi].
    + (* Accept *)
      set (b := match table_get (a_table a) addr with Some t => abort_task a t | None => a end).
      assert (Hb : a_table b = a_table a /\ a_down b = a_down a /\ a_closed b = a_closed a /\
        (forall ad u, In (ad, u) (table_del (a_table a) addr) -> exists x, nth_error (a_tasks b) u = Some x /\ t_addr x = ad /\ wanted x) /\
        (complete a -> forall u x, nth_error (a_tasks b) u = Some x -> live x -> wanted x -> In (t_addr x, u) (table_del (a_table a) addr)) /\
        (forall ad u x, In (ad, u) (table_del (a_table a) addr) -> nth_error (a_tasks b) u = Some x -> nth_error (a_tasks a) u = Some x)).
      { unfold b. destruct (table_get (a_table a) addr) as [t|] eqn:Eg.
        - destruct (Hout addr t (abort_task a t) Eg eq_refl) as (O1 & O2 & O3).
          destruct (abort_frame a t) as (_ & _ & _ & Ft & Fd & Fc & _). repeat split; auto.
        - rewrite (Hlook addr Eg). repeat split; auto. intros C u x Hx Hl Hw. now destruct (C u x Hx Hl Hw). }
      destruct Hb as (B1 & B2 & B3 & B4 & B5 & B6). rewrite B1, B2, B3.
      assert (Hnth : forall u x, nth_error (a_tasks b ++ [Task addr (a_subs b) (length (a_pub b)) [] Idle false]) u = Some x ->
        (nth_error (a_tasks b) u = Some x) \/ (u = length (a_tasks b) /\ x = Task addr (a_subs b) (length (a_pub b)) [] Idle false)).
      { intros u x Hx. destruct (Nat.lt_ge_cases u (length (a_tasks b))) as [Hl|Hl].
        - left. now rewrite nth_error_app1 in Hx by exact Hl.
        - right. rewrite nth_error_app2 in Hx by exact Hl. destruct (u - length (a_tasks b))%nat as [|k] eqn:Ek; [|destruct k; discriminate].
          injection Hx as <-. split; [lia|reflexivity]. }
      split; [constructor; cbn [a_table a_tasks a_down]|split].
      * rewrite map_app. cbn [map fst]. apply (Permutation_NoDup (l := addr :: map fst (table_del (a_table a) addr))); [apply Permutation_cons_append|].
        constructor; [|now apply table_del_keys]. intros Hin. apply in_map_iff in Hin as ([ad u] & E & Hin).
        apply in_table_del in Hin as [_ Hne]. cbn in E. congruence.
      * intros ad u Hin. apply in_app_or in Hin as [Hin|[Hin|[]]].
        -- destruct (B4 ad u Hin) as (x & Hx & Ex & Wx). exists x. split; [|now split]. rewrite nth_error_app1; [exact Hx|]. now apply nth_lt in Hx.
        -- injection Hin as <- <-. eexists. rewrite nth_error_app2, Nat.sub_diag by lia. split; [reflexivity|]. split; reflexivity.
      * congruence.
      * intros C _ u x Hx Hl Hw. cbn [a_table a_tasks a_down] in *. split; [exact Ed|]. apply in_or_app.
        apply Hnth in Hx as [Hx|[-> ->]]; [left; now apply B5|right; now left].
      * intros N0 _ ad u x Hin Hx Hg. cbn [a_table a_tasks a_closed] in *.
        apply Hnth in Hx as [Hx|[-> ->]]; [|discriminate Hg].
        apply in_app_or in Hin as [Hin|[Hin|[]]].
        -- pose proof (B6 ad u x Hin Hx) as Hx'. apply in_table_del in Hin as [Hin _]. eapply N0; eassumption.
        -- injection Hin as _ Eu. subst u. apply nth_lt in Hx. lia.
Qed.
Lemma table_state es : table_ok (state es).
Proof.
  apply (state_ind hash (fun _ a => table_ok a)); [constructor; cbn; [constructor|intros ? ? []|discriminate]|].
  clear es. intros es e IH. now apply table_step.
Qed.
Lemma in_time_app a es fs : in_time hash a (es ++ fs) <-> in_time hash a es /\ in_time hash (fst (run hash a es)) fs.
Proof.
  revert a. induction es as [|e es IH]; intros a; [cbn; tauto|]. cbn [app in_time run]. rewrite IH.
  destruct (step a e) as [b x]. cbn [fst]. destruct (run hash b es). cbn [fst]. tauto.
Qed.
Lemma roomy_app a es fs : roomy hash a (es ++ fs) <-> roomy hash a es /\ roomy hash (fst (run hash a es)) fs.
Proof.
  revert a. induction es as [|e es IH]; intros a; [cbn; tauto|]. cbn [app roomy run]. rewrite IH.
  destruct (step a e) as [b x]. cbn [fst]. destruct (run hash b es). cbn [fst]. tauto.
Qed.
Lemma complete_state es : in_time hash init es -> complete (state es).
Proof.
  apply (state_ind hash (fun es a => in_time hash init es -> complete a)).
  - intros _ [|t] x H; discriminate.
  - clear es. intros es e IH Hi. apply in_time_app in Hi as [H1 H2]. destruct (table_step (state es) e (table_state es)) as (_ & Hc & _).
    apply Hc; [auto|]. cbn [in_time] in H2. exact (proj1 H2).
Qed.
Lemma noticed_state es : roomy hash init es -> noticed (state es).
Proof.
  apply (state_ind hash (fun es a => roomy hash init es -> noticed a)).
  - intros _ ad [|t] x [].
  - clear es. intros es e IH Hi. apply roomy_app in Hi as [H1 H2]. destruct (table_step (state es) e (table_state es)) as (_ & _ & Hc).
    apply Hc; [auto|]. cbn [roomy] in H2. exact (proj1 H2).
Qed.

(* ---------------- catching up ---------------- *)
Lemma update_step a t x : nth_error (a_tasks a) t = Some x -> t_phase x = Idle ->
  let a' := fst (step a (Update t)) in
  a_pub a' = a_pub a /\ a_subs a' = a_subs a /\ a_down a' = a_down a /\
  exists x', nth_error (a_tasks a') t = Some x' /\ t_abort x' = t_abort x /\
    (if Nat.eqb (length (a_pub a) - t_cursor x) 0
     then (if a_down a then t_phase x' = Closing else x' = x)
     else t_phase x' = Idle /\
       t_cursor x' = if Nat.ltb pub_capacity (length (a_pub a) - t_cursor x) then (length (a_pub a) - pub_capacity)%nat else S (t_cursor x)).
Proof.
  intros Hx Hp. cbv zeta. destruct (step_event_frame hash a (Update t) t eq_refl) as (_ & F2 & F3 & _ & F5).
  split; [exact F3|]. split; [exact F2|]. split; [exact F5|].
  unfold BsModel.step. cbn [event_task fst]. rewrite Hx. unfold task_step. rewrite Hp. cbv zeta. pose proof (nth_lt _ _ _ Hx) as Hlt.
  destruct (Nat.eqb (length (a_pub a) - t_cursor x) 0).
  - destruct (a_down a); [|exists x; auto]. eexists. rewrite set_task_tasks, nth_upd, Nat.eqb_refl by exact Hlt. split; [reflexivity|]. split; reflexivity.
  - destruct (Nat.ltb _ _); eexists; rewrite set_task_tasks, nth_upd, Nat.eqb_refl by exact Hlt; (split; [reflexivity|]; split; [reflexivity|split; reflexivity]).
Qed.
Lemma closing_update a t x : nth_error (a_tasks a) t = Some x -> t_phase x = Closing -> fst (step a (Update t)) = a.
Proof. intros Hx Hp. unfold BsModel.step. cbn [event_task fst]. rewrite Hx. unfold task_step. now rewrite Hp. Qed.
Lemma updates_catch_up t n : forall a x, nth_error (a_tasks a) t = Some x ->
  (t_phase x = Idle /\ (t_cursor x <= length (a_pub a))%nat /\ (length (a_pub a) - t_cursor x <= n)%nat /\ (n <= pub_capacity)%nat) \/
  (t_phase x = Closing /\ a_down a = true) ->
  let a' := fst (run hash a (repeat (Update t) n)) in
  a_pub a' = a_pub a /\ a_subs a' = a_subs a /\ a_down a' = a_down a /\
  exists x', nth_error (a_tasks a') t = Some x' /\ t_abort x' = t_abort x /\
    ((t_phase x' = Idle /\ t_cursor x' = length (a_pub a)) \/ (t_phase x' = Closing /\ a_down a = true)).
Proof.
  induction n as [|n IH]; intros a x Hx Hc.
  - cbn. repeat split. exists x. split; [exact Hx|]. split; [reflexivity|]. destruct Hc as [(H1 & H2 & H3 & _)|H]; [left|now right]. split; [exact H1|lia].
  - cbn [repeat run].
    assert (Hs : let a1 := fst (step a (Update t)) in a_pub a1 = a_pub a /\ a_subs a1 = a_subs a /\ a_down a1 = a_down a /\
      exists x1, nth_error (a_tasks a1) t = Some x1 /\ t_abort x1 = t_abort x /\
      ((t_phase x1 = Idle /\ (t_cursor x1 <= length (a_pub a1))%nat /\ (length (a_pub a1) - t_cursor x1 <= n)%nat /\ (n <= pub_capacity)%nat) \/
       (t_phase x1 = Closing /\ a_down a1 = true))).
    { destruct Hc as [(H1 & H2 & H3 & H4)|[H1 H2]].
      - destruct (update_step a t x Hx H1) as (E1 & E2 & E3 & x1 & Hx1 & Ha & Hr). cbv zeta. rewrite E1, E2, E3. repeat split; auto. exists x1. split; [exact Hx1|]. split; [exact Ha|].
        destruct (Nat.eqb_spec (length (a_pub a) - t_cursor x) 0) as [E0|E0].
        + destruct (a_down a) eqn:Ed; [right; now split|]. left. subst x1. repeat split; auto; lia.
        + destruct Hr as [Hr1 Hr2]. left. split; [exact Hr1|]. destruct (Nat.ltb_spec pub_capacity (length (a_pub a) - t_cursor x)); lia.
      - cbv zeta. rewrite (closing_update a t x Hx H1). repeat split; auto. exists x. auto. }
    destruct (step a (Update t)) as [a1 y]. cbn [fst] in Hs. cbv zeta in Hs. destruct Hs as (E1 & E2 & E3 & x1 & Hx1 & Ha & Hc1).
    specialize (IH a1 x1 Hx1 Hc1). destruct (run hash a1 (repeat (Update t) n)) as [a2 ys]. cbn [fst] in *. cbv zeta in IH.
    rewrite E1, E2, E3, Ha in IH. exact IH.
Qed.
(* seventeen turns bring a connection up to date, eighteen end it once the service stopped *)
Lemma run_cons a e es : fst (run hash a (e :: es)) = fst (run hash (fst (step a e)) es).
Proof. cbn [run]. destruct (step a e) as [b x]. cbn [fst]. destruct (run hash b es). reflexivity. Qed.
Lemma run_repeat_S a e n : fst (run hash a (repeat e (S n))) = fst (run hash (fst (step a e)) (repeat e n)).
Proof. cbn [repeat]. apply run_cons. Qed.
Lemma run_repeat_snoc a e n : fst (run hash a (repeat e (S n))) = fst (step (fst (run hash a (repeat e n))) e).
Proof.
  revert a. induction n as [|n IH]; intros a; [cbn [repeat]; rewrite run_cons; reflexivity|].
  rewrite run_repeat_S, IH, <- run_repeat_S. reflexivity.
Qed.
Lemma seventeen a t x : nth_error (a_tasks a) t = Some x -> t_phase x = Idle -> (t_cursor x <= length (a_pub a))%nat ->
  let a' := fst (run hash a (repeat (Update t) 17)) in
  a_pub a' = a_pub a /\ a_subs a' = a_subs a /\ a_down a' = a_down a /\
  exists x', nth_error (a_tasks a') t = Some x' /\ t_abort x' = t_abort x /\
    ((t_phase x' = Idle /\ t_cursor x' = length (a_pub a)) \/ (t_phase x' = Closing /\ a_down a = true)).
Proof.
  intros Hx Hp Hc. cbv zeta. rewrite run_repeat_S. pose proof (update_step a t x Hx Hp) as Hu. cbv zeta in Hu. revert Hu.
  generalize (fst (step a (Update t))) as a1. intros a1 (E1 & E2 & E3 & x1 & Hx1 & Ha & Hr).
  destruct (updates_catch_up t 16 a1 x1 Hx1) as (G1 & G2 & G3 & G4).
  - destruct (Nat.eqb_spec (length (a_pub a) - t_cursor x) 0) as [E0|E0].
    + destruct (a_down a) eqn:Ed; [right; split; [exact Hr|congruence]|]. left. subst x1. rewrite E1. unfold pub_capacity. repeat split; auto; lia.
    + left. destruct Hr as [Hr1 Hr2]. rewrite E1. split; [exact Hr1|]. unfold pub_capacity in *.
      destruct (Nat.ltb_spec 16 (length (a_pub a) - t_cursor x)); lia.
  - rewrite E1, E2, E3, Ha in *. auto.
Qed.
Lemma eighteen a t x : nth_error (a_tasks a) t = Some x -> t_phase x = Idle -> (t_cursor x <= length (a_pub a))%nat -> a_down a = true ->
  exists x', nth_error (a_tasks (fst (run hash a (repeat (Update t) 18)))) t = Some x' /\ t_phase x' = Closing.
Proof.
  intros Hx Hp Hc Hd. rewrite run_repeat_snoc.
  pose proof (seventeen a t x Hx Hp Hc) as H17. cbv zeta in H17. revert H17. generalize (fst (run hash a (repeat (Update t) 17))) as b.
  intros b (E1 & _ & E3 & x' & Hx' & _ & Hc').
  destruct Hc' as [[H1 H2]|[H1 _]].
  - destruct (update_step b t x' Hx' H1) as (_ & _ & _ & x2 & Hx2 & _ & Hr).
    rewrite E1, H2, Nat.sub_diag, Nat.eqb_refl, E3, Hd in Hr. eauto.
  - exists x'. rewrite (closing_update b t x' Hx' H1). auto.
Qed.
End Actor.

(* rounds of one peer connecting and leaving, the service not taking the notices *)
Definition round (i : nat) : list event := [Accept 0; Ended i; Notice i].
Lemma rounds_state hash n : (n <= closed_capacity)%nat ->
  let a := state hash (concat (map round (seq 0 n))) in
  a_subs a = [] /\ a_pub a = [] /\ length (a_tasks a) = n /\ (a_table a = [] \/ a_table a = [(0, (n - 1)%nat)]) /\
  a_closed a = repeat 0 n /\ a_down a = false.
Proof.
  induction n as [|n IH]; intros Hn; cbv zeta; [cbn; auto 7|].
  rewrite seq_S, map_app, concat_app. cbn [map concat]. rewrite app_nil_r. cbn [plus].
  change (round n) with ([Accept 0] ++ [Ended n] ++ [Notice n]). rewrite !app_assoc, !state_snoc.
  cbv zeta in IH. specialize (IH ltac:(lia)). revert IH. generalize (state hash (concat (map round (seq 0 n)))) as a.
  intros a (I1 & I2 & I3 & I4 & I5 & I6).
  assert (Hacc : exists l, a_subs (fst (step hash a (Accept 0))) = [] /\ a_pub (fst (step hash a (Accept 0))) = [] /\
    a_tasks (fst (step hash a (Accept 0))) = l ++ [Task 0 [] 0 [] Idle false] /\ length l = n /\
    a_table (fst (step hash a (Accept 0))) = [(0, n)] /\ a_closed (fst (step hash a (Accept 0))) = repeat 0 n /\ a_down (fst (step hash a (Accept 0))) = false).
  { unfold step. cbn [event_task]. rewrite I6. cbv zeta. cbn [fst a_subs a_pub a_tasks a_table a_closed a_down].
    destruct I4 as [E|E]; rewrite E; cbn [table_get find fst option_map snd N.eqb].
    - exists (a_tasks a). rewrite I1, I2, E, I3. cbn. auto 8.
    - destruct (abort_frame a (n - 1)) as (F1 & F2 & F3 & F4 & F5 & F6 & F7 & F8). exists (a_tasks (abort_task a (n - 1))).
      rewrite F2, F3, F4, F5, F6, F8, I1, I2, I3, E. cbn. auto 8. }
  destruct Hacc as (l & A1 & A2 & A3 & A4 & A5 & A6 & A7). revert A1 A2 A3 A5 A6 A7. generalize (fst (step hash a (Accept 0))) as b. intros b A1 A2 A3 A5 A6 A7.
  assert (Hnth : forall y, nth_error (l ++ [y]) n = Some y) by (intros y; rewrite nth_error_app2, A4, Nat.sub_diag by lia; reflexivity).
  assert (Hupd : forall y z, firstn n (l ++ [y]) ++ z :: skipn (S n) (l ++ [y]) = l ++ [z]).
  { intros y z. rewrite firstn_app, skipn_app, A4, Nat.sub_diag, firstn_all2, skipn_all2 by lia. cbn [firstn app].
    replace (S n - n)%nat with 1%nat by lia. cbn [skipn]. now rewrite app_nil_r. }
  assert (Hend : fst (step hash b (Ended n)) = Actor (a_next b) [] [] (l ++ [Task 0 [] 0 [] Closing false]) [(0, n)] (repeat 0 n) (a_log b) false).
  { unfold step. cbn [event_task fst]. rewrite A3, Hnth. unfold task_step. cbn [t_phase]. unfold set_task. rewrite A3, Hupd, A1, A2, A5, A6, A7. reflexivity. }
  rewrite Hend. unfold step. cbn [event_task fst a_tasks]. rewrite Hnth. unfold task_step. cbn [t_phase t_addr]. unfold set_task.
  cbn [a_next a_subs a_pub a_tasks a_table a_closed a_log a_down]. rewrite Hupd, repeat_length. cbn [orb].
  destruct (Nat.leb_spec closed_capacity n) as [H|_]; [lia|]. cbn [a_next a_subs a_pub a_tasks a_table a_closed a_log a_down].
  rewrite app_length, A4. cbn [length]. split; [reflexivity|]. split; [reflexivity|]. split; [lia|].
  split; [right; repeat f_equal; lia|]. split; [|reflexivity]. change [0] with (repeat 0 1). rewrite <- repeat_app. f_equal. lia.
Qed.
Lemma take_all hash m : forall a t, a_closed a = repeat 0 m -> In (1, t) (a_table a) -> a_down a = false ->
  let b := fst (run hash a (repeat TakeClosed m)) in
  a_closed b = [] /\ In (1, t) (a_table b) /\ a_down b = false /\ a_tasks b = a_tasks a.
Proof.
  induction m as [|m IH]; intros a t Hc Hin Hd; cbv zeta; [cbn; auto|]. rewrite run_repeat_S.
  assert (Hs : fst (step hash a TakeClosed) = Actor (a_next a) (a_subs a) (a_pub a) (a_tasks a) (table_del (a_table a) 0) (repeat 0 m) (a_log a) false).
  { unfold step. cbn [event_task]. rewrite Hd, Hc. reflexivity. }
  rewrite Hs. specialize (IH (Actor (a_next a) (a_subs a) (a_pub a) (a_tasks a) (table_del (a_table a) 0) (repeat 0 m) (a_log a) false) t eq_refl).
  cbv zeta in IH. cbn [a_table a_down a_tasks] in IH. apply IH; [|reflexivity]. apply in_table_del. split; [exact Hin|discriminate].
Qed.
Lemma one_more hash n a : a_subs a = [] -> a_pub a = [] -> length (a_tasks a) = n -> (a_table a = [] \/ a_table a = [(0, (n - 1)%nat)]) ->
  a_closed a = repeat 0 n -> a_down a = false -> (closed_capacity <= n)%nat ->
  let b := fst (run hash a [Accept 1; Ended n; Notice n]) in
  nth_error (a_tasks b) n = Some (Task 1 [] 0 [] Gone false) /\ a_closed b = repeat 0 n /\ a_down b = false /\ In (1, n) (a_table b).
Proof.
  intros I1 I2 I3 I4 I5 I6 Hc. cbv zeta. rewrite !run_cons. cbn [run fst].
  assert (Hacc : exists tb, fst (step hash a (Accept 1)) = Actor (a_next a) [] [] (a_tasks a ++ [Task 1 [] 0 [] Idle false]) tb (repeat 0 n) (a_log a) false /\ In (1, n) tb).
  { unfold step. cbn [event_task]. rewrite I6. cbv zeta. destruct I4 as [E|E]; rewrite E; cbn [table_get find fst option_map snd N.eqb];
      rewrite ?E, I1, I2, I3, I5, I6; eexists; (split; [reflexivity|]); cbn; auto. }
  destruct Hacc as (tb & -> & Hin).
  assert (Hnth : forall y, nth_error (a_tasks a ++ [y]) n = Some y) by (intros y; rewrite nth_error_app2, I3, Nat.sub_diag by lia; reflexivity).
  assert (Hupd : forall y z, firstn n (a_tasks a ++ [y]) ++ z :: skipn (S n) (a_tasks a ++ [y]) = a_tasks a ++ [z]).
  { intros y z. rewrite firstn_app, skipn_app, I3, Nat.sub_diag, firstn_all2, skipn_all2 by lia. cbn [firstn app].
    replace (S n - n)%nat with 1%nat by lia. cbn [skipn]. now rewrite app_nil_r. }
  assert (Hend : fst (step hash (Actor (a_next a) [] [] (a_tasks a ++ [Task 1 [] 0 [] Idle false]) tb (repeat 0 n) (a_log a) false) (Ended n)) =
    Actor (a_next a) [] [] (a_tasks a ++ [Task 1 [] 0 [] Closing false]) tb (repeat 0 n) (a_log a) false).
  { unfold step. cbn [event_task fst a_tasks]. rewrite Hnth. unfold task_step. cbn [t_phase]. unfold set_task. cbn [a_tasks]. rewrite Hupd. reflexivity. }
  rewrite Hend. unfold step. cbn [event_task fst a_tasks]. rewrite Hnth. unfold task_step. cbn [t_phase t_addr]. unfold set_task.
  cbn [a_next a_subs a_pub a_tasks a_table a_closed a_log a_down]. rewrite Hupd, repeat_length. cbn [orb].
  destruct (Nat.leb_spec closed_capacity n) as [_|H]; [|lia]. cbn [a_next a_subs a_pub a_tasks a_table a_closed a_log a_down].
  split; [apply Hnth|auto].
Qed.
Lemma overflow hash : exists es t x, nth_error (a_tasks (state hash es)) t = Some x /\ t_phase x = Gone /\ t_addr x = 1 /\
  a_closed (state hash es) = [] /\ a_down (state hash es) = false /\ In (1, t) (a_table (state hash es)).
Proof.
  exists (concat (map round (seq 0 closed_capacity)) ++ [Accept 1; Ended closed_capacity; Notice closed_capacity] ++ repeat TakeClosed closed_capacity), closed_capacity, (Task 1 [] 0 [] Gone false).
  destruct (rounds_state hash closed_capacity (le_n _)) as (I1 & I2 & I3 & I4 & I5 & I6).
  rewrite state_app, run_app. revert I1 I2 I3 I4 I5 I6. generalize (state hash (concat (map round (seq 0 closed_capacity)))) as a. intros a I1 I2 I3 I4 I5 I6.
  destruct (one_more hash closed_capacity a I1 I2 I3 I4 I5 I6 (le_n _)) as (O1 & O2 & O3 & O4).
  revert O1 O2 O3 O4. generalize (fst (run hash a [Accept 1; Ended closed_capacity; Notice closed_capacity])) as b. intros b O1 O2 O3 O4.
  destruct (take_all hash closed_capacity b closed_capacity O2 O4 O3) as (P1 & P2 & P3 & P4). rewrite P4. auto 7.
Qed.
