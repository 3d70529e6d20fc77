From Verif Require Import Base BaseLemmas MapLib ActorModel ActorSpec.

Lemma peer_eqb_spec a b : reflect (a = b) (peer_eqb a b).
Proof.
  destruct a as [a1 a2], b as [b1 b2]; unfold peer_eqb; cbn.
  destruct (N.eqb_spec a1 b1), (N.eqb_spec a2 b2); constructor; congruence.
Qed.
Lemma peer_eqb_refl a : peer_eqb a a = true.
Proof. destruct (peer_eqb_spec a a); congruence. Qed.

Section Proofs.
Context {C Pk Chan : Type} (fresh : C) (dec : C -> list N -> C * option Pk) (hash : N -> N).
Notation actor := (actor C Chan).
Notation trace := (list (event Chan * list (out C Pk Chan))).
Notation event := (event Chan).
Notation out := (out C Pk Chan).
Notation step := (step fresh dec hash).
Notation run := (run fresh dec hash).
Implicit Types (s : actor) (e : event) (evs : list event).

Lemma run_cons (s : actor) e evs : run s (e :: evs) = (fst (run (fst (step s e)) evs), (e, snd (step s e)) :: snd (run (fst (step s e)) evs)).
Proof. cbn. destruct (step s e) as [s1 o]. cbn. now destruct (run s1 evs). Qed.
Lemma run_app (s : actor) a b : run s (a ++ b) = (fst (run (fst (run s a)) b), snd (run s a) ++ snd (run (fst (run s a)) b)).
Proof.
  revert s; induction a as [|e a IH]; intros s.
  - cbn [app]. cbn. now destruct (run s b).
  - cbn [app]. rewrite !run_cons, IH. reflexivity.
Qed.
Lemma outputs_cons (e : event) (o : list out) tr : outputs ((e, o) :: tr) = o ++ outputs tr.
Proof. reflexivity. Qed.
Lemma outputs_app (a b : list (event * list out)) : outputs (a ++ b) = outputs a ++ outputs b.
Proof. unfold outputs. now rewrite map_app, concat_app. Qed.

(* ---- no panic ---- *)
Lemma pick_some (ss : list Chan) p : ss <> [] -> exists c, pick hash ss p = Some c.
Proof.
  intros H. unfold pick. destruct ss as [|c0 ss]; [congruence|].
  set (l := c0 :: ss) in *.
  assert (Hl : blen l <> 0) by (unfold blen, l; cbn; lia).
  destruct (N.eqb_spec (blen l) 1); [now exists c0|].
  destruct (N.eqb_spec (blen l) 0); [congruence|].
  destruct (nth_error l (N.to_nat (hash (fst p) mod blen l))) eqn:E; [eauto|].
  apply nth_error_None in E. exfalso.
  pose proof (N.mod_lt (hash (fst p)) (blen l) Hl). unfold blen in *. lia.
Qed.
Lemma pick_serving (ss : list Chan) p : pick hash ss p = serving hash ss p.
Proof.
  unfold pick, serving. destruct ss as [|a [|b ss]]; try reflexivity.
  destruct (N.eqb_spec (blen (a :: b :: ss)) 1) as [E|_]; [unfold blen in E; cbn in E; lia|].
  destruct (N.eqb_spec (blen (a :: b :: ss)) 0) as [E|_]; [unfold blen in E; cbn in E; lia|]. reflexivity.
Qed.
Lemma offer_no_panic closed takes p k (subs : list (N * list Chan)) :
  existsb (@is_panic C Pk Chan) (map (offer hash takes p k) (filter (keep_open closed) subs)) = false.
Proof.
  induction subs as [|[i ss] subs IH]; [reflexivity|]. cbn [filter].
  destruct (keep_open closed (i, ss)) eqn:E; [|exact IH].
  cbn [map existsb]. rewrite IH, Bool.orb_false_r.
  unfold offer; cbn [fst snd]. destruct (pick_some ss p) as [c ->].
  - intros ->. unfold keep_open in E; cbn in E. discriminate.
  - now destruct (takes c).
Qed.
Lemma is_panic_existsb (l : list out) : existsb (@is_panic C Pk Chan) l = false -> ~ In OPanic l.
Proof.
  intros H Hi. assert (existsb (@is_panic C Pk Chan) l = true) by (apply existsb_exists; eauto). congruence.
Qed.
Lemma step_no_panic s e : ~ In OPanic (snd (step s e)).
Proof.
  unfold ActorModel.step. destruct (a_run s); [|now cbn].
  destruct e; cbn; try (intuition discriminate).
  - unfold handle_packet. destruct (dec _ b) as [c' [k|]]; cbn; [|intuition discriminate].
    intros [H|H]; [discriminate|]. revert H. apply is_panic_existsb, offer_no_panic.
  - unfold handle_subscribe. destruct heard; cbn; intuition discriminate.
  - match goal with |- context [mhas ?a ?b ?c] => destruct (mhas a b c) end; cbn; intuition discriminate.
  - unfold handle_purge_peer. match goal with |- context [mhas ?a ?b ?c] => destruct (mhas a b c) end; cbn; intuition discriminate.
Qed.
Lemma step_run s e : a_run (fst (step s e)) = a_run s && negb (ends e).
Proof.
  unfold ActorModel.step. destruct (a_run s) eqn:R; [|cbn; now rewrite R].
  destruct e; cbn; try reflexivity; try (now rewrite R).
  - unfold handle_packet. destruct (dec _ b) as [c' [k|]]; cbn; [|reflexivity].
    now rewrite offer_no_panic.
  - unfold handle_subscribe. now destruct heard.
  - unfold handle_purge_peer. match goal with |- context [mhas ?a ?b ?c] => destruct (mhas a b c) end; cbn; [reflexivity|exact R].
Qed.
Lemma run_run evs : forall s, a_run (fst (run s evs)) = a_run s && negb (existsb ends evs).
Proof.
  induction evs as [|e evs IH]; intros s; [cbn; now rewrite Bool.andb_true_r|].
  rewrite run_cons. cbn [fst existsb]. rewrite IH, step_run, Bool.negb_orb, Bool.andb_assoc. reflexivity.
Qed.
Lemma run_stopped evs : forall s, a_run s = false -> outputs (snd (run s evs)) = [].
Proof.
  induction evs as [|e evs IH]; intros s R; [reflexivity|].
  rewrite run_cons. cbn [snd]. rewrite outputs_cons.
  assert (step s e = (s, [])) as -> by (unfold ActorModel.step; now rewrite R). cbn [fst snd]. now rewrite IH.
Qed.

(* ---- C37 ---- *)
Lemma about_offers p q k takes (subs : list (N * list Chan)) : filter (about p) (map (offer hash takes q k) subs : list out) = [].
Proof.
  induction subs as [|s subs IH]; [reflexivity|]. cbn. unfold offer at 1.
  destruct (pick hash (snd s) q) as [c|]; [destruct (takes c)|]; cbn; exact IH.
Qed.
Lemma step_skip p s e : concerns p e = false ->
  mget peer_eqb p (a_clients (fst (step s e))) = mget peer_eqb p (a_clients s) /\ filter (about p) (snd (step s e)) = [].
Proof.
  intros Hc. unfold ActorModel.step. destruct (a_run s); [|now split].
  destruct e; cbn in Hc |- *; try discriminate; try (split; reflexivity).
  - unfold handle_packet. destruct (dec _ b) as [c' [k|]]; cbn;
      rewrite (mget_mset _ peer_eqb_spec), Hc; split; try reflexivity.
    now rewrite about_offers.
  - unfold handle_subscribe. now destruct heard.
  - match goal with |- context [mhas ?a ?b ?c] => now destruct (mhas a b c) end.
  - unfold handle_purge_peer. match goal with |- context [mhas ?a ?b ?c] => destruct (mhas a b c) end; cbn; [|now split].
    rewrite (mget_mrem _ peer_eqb_spec), Hc. now split.
  - rewrite Hc. now split.
Qed.
Lemma step_same p (s1 s2 : actor) e : a_run s1 = a_run s2 -> mget peer_eqb p (a_clients s1) = mget peer_eqb p (a_clients s2) ->
  mget peer_eqb p (a_clients (fst (step s1 e))) = mget peer_eqb p (a_clients (fst (step s2 e))) /\
  filter (about p) (snd (step s1 e)) = filter (about p) (snd (step s2 e)).
Proof.
  intros R Hm. destruct (concerns p e) eqn:Hc.
  2:{ destruct (step_skip p s1 e Hc), (step_skip p s2 e Hc). split; congruence. }
  unfold ActorModel.step. rewrite R. destruct (a_run s2); [|now split].
  destruct e; cbn in Hc |- *; try discriminate; try (now split).
  - destruct (peer_eqb_spec p p0) as [<-|]; [|discriminate].
    unfold handle_packet. rewrite <- Hm. destruct (dec _ b) as [c' [k|]]; cbn;
      rewrite !(mget_mset_eq _ peer_eqb_spec); split; try reflexivity.
    rewrite peer_eqb_refl. now rewrite !about_offers.
  - destruct (peer_eqb_spec p p0) as [<-|]; [|discriminate].
    unfold handle_purge_peer, mhas. rewrite <- Hm. destruct (mget peer_eqb p (a_clients s1)) eqn:E; cbn.
    + now rewrite !mget_mrem_eq.
    + now rewrite <- Hm, E.
  - destruct (peer_eqb_spec p p0) as [<-|]; [|discriminate].
    split; [exact Hm|]. now rewrite Hm.
Qed.
Lemma filter_app' {A} (f : A -> bool) a b : filter f (a ++ b) = filter f a ++ filter f b.
Proof. induction a as [|x a IH]; [reflexivity|]. cbn. rewrite IH. now destruct (f x). Qed.
Lemma concerns_ends p (e : event) : concerns p e = false -> ends e = false.
Proof. destruct e; cbn; congruence. Qed.
Lemma run_own p evs : forall (s1 s2 : actor), a_run s1 = a_run s2 -> mget peer_eqb p (a_clients s1) = mget peer_eqb p (a_clients s2) ->
  filter (about p) (outputs (snd (run s1 evs))) = filter (about p) (outputs (snd (run s2 (filter (concerns p) evs)))).
Proof.
  induction evs as [|e evs IH]; intros s1 s2 R Hm; [reflexivity|].
  rewrite run_cons. cbn [snd filter]. rewrite outputs_cons, filter_app'.
  destruct (concerns p e) eqn:Hc.
  - rewrite run_cons. cbn [snd]. rewrite outputs_cons, filter_app'.
    destruct (step_same p s1 s2 e R Hm) as [H1 H2]. rewrite H2. f_equal.
    apply IH; [|exact H1]. now rewrite !step_run, R.
  - destruct (step_skip p s1 e Hc) as [H1 H2]. rewrite H2. cbn [app].
    apply IH; [|congruence]. now rewrite step_run, R, (concerns_ends p e Hc), Bool.andb_true_r.
Qed.
Lemma run_same p evs : forall (s1 s2 : actor), a_run s1 = a_run s2 -> mget peer_eqb p (a_clients s1) = mget peer_eqb p (a_clients s2) ->
  filter (about p) (outputs (snd (run s1 evs))) = filter (about p) (outputs (snd (run s2 evs))).
Proof. intros s1 s2 R Hm. rewrite (run_own p evs s1 s2 R Hm). symmetry. now apply run_own. Qed.
Lemma purged_fresh p s : a_run s = true -> mget peer_eqb p (a_clients (fst (step s (EvPurgePeer p)))) = None.
Proof.
  intros R. unfold ActorModel.step. rewrite R. unfold handle_purge_peer, mhas.
  destruct (mget peer_eqb p (a_clients s)) eqn:E; cbn; [now rewrite mget_mrem_eq|exact E].
Qed.

Lemma run_replay p evs : forall (s : actor), a_run s = true ->
  filter (about p) (outputs (snd (run s evs))) = own_decoder fresh dec p (mget peer_eqb p (a_clients s)) evs.
Proof.
  induction evs as [|e evs IH]; intros s R; [reflexivity|].
  rewrite run_cons. cbn [snd]. rewrite outputs_cons, filter_app'.
  destruct (concerns p e) eqn:Hc.
  - destruct (ends e) eqn:He.
    { rewrite run_stopped by (now rewrite step_run, R, He). cbn [filter]. rewrite app_nil_r.
      unfold ActorModel.step. rewrite R. destruct e; try discriminate He; reflexivity. }
    rewrite IH by (now rewrite step_run, R, He). unfold ActorModel.step. rewrite R.
    destruct e as [now q b closed takes|ss h|i|q|now dur| |q| |]; cbn in Hc; try discriminate Hc; try discriminate He;
      destruct (peer_eqb_spec p q) as [<-|]; try discriminate Hc.
    + cbn [own_decoder]. rewrite (proj1 (reflect_iff _ _ (peer_eqb_spec p p)) eq_refl).
      unfold handle_packet. destruct (dec _ b) as [c' [k|]]; cbn [fst snd a_clients handle_decoded filter about].
      * rewrite (proj1 (reflect_iff _ _ (peer_eqb_spec p p)) eq_refl). cbn [app]. f_equal.
        rewrite about_offers, (mget_mset_eq _ peer_eqb_spec). reflexivity.
      * rewrite (proj1 (reflect_iff _ _ (peer_eqb_spec p p)) eq_refl). cbn [app]. f_equal.
        now rewrite (mget_mset_eq _ peer_eqb_spec).
    + pose proof (purged_fresh p s R) as Hf. unfold ActorModel.step in Hf. rewrite R in Hf. rewrite Hf.
      cbn [own_decoder]. rewrite (proj1 (reflect_iff _ _ (peer_eqb_spec p p)) eq_refl).
      unfold handle_purge_peer. match goal with |- context [mhas ?a ?b ?c] => now destruct (mhas a b c) end.
    + cbn [own_decoder fst snd filter about]. rewrite (proj1 (reflect_iff _ _ (peer_eqb_spec p p)) eq_refl). reflexivity.
  - destruct (step_skip p s e Hc) as [H1 H2]. rewrite H2. cbn [app].
    rewrite IH by (rewrite step_run, R, (concerns_ends p e Hc); reflexivity). rewrite H1.
    destruct e; cbn in Hc |- *; try discriminate Hc; try reflexivity; now rewrite Hc.
Qed.

(* ---- C38 ---- *)
Definition uinv (T : N) (u : list (peer * usage)) (tr : list (event * list out)) : Prop :=
  NoDup (mkeys u) /\
  (forall p t n, In (p, (t, n)) u -> t <= T /\ (exists t', decoded_at p t' tr) /\ (n = 0 -> forall t', decoded_at p t' tr -> t' <= t)) /\
  (forall p t', decoded_at p t' tr -> t' <= T).
Definition tick (T : N) (e : event) : N := match time_of e with Some t => t | None => T end.

Lemma decoded_snoc p t (tr : trace) e os : decoded_at p t (tr ++ [(e, os)]) ->
  decoded_at p t tr \/ exists b closed takes k, e = EvPacket t p b closed takes /\ In (ODecoded p k) os.
Proof.
  intros (b & cl & tk & o' & k & H & Hk). apply in_app_or in H. destruct H as [H|[H|[]]].
  - left. red; eauto 8.
  - injection H as -> ->. right; eauto 8.
Qed.
Lemma decoded_mono p t (tr : trace) x : decoded_at p t tr -> decoded_at p t (tr ++ [x]).
Proof. intros (b & cl & tk & o' & k & H & Hk). exists b, cl, tk, o', k. split; [apply in_or_app; auto|auto]. Qed.


Lemma uinv_step T (s : actor) e (tr : trace) : (forall t, time_of e = Some t -> T <= t) -> uinv T (a_usage s) tr ->
  uinv (tick T e) (a_usage (fst (step s e))) (tr ++ [(e, snd (step s e))]).
Proof.
  intros Ht (ND & I1 & I2).
  assert (HT : T <= tick T e) by (unfold tick; destruct (time_of e) eqn:E; [now apply Ht|lia]).
  assert (Hplain : forall u os, NoDup (mkeys u) ->
    (forall p t n, In (p, (t, n)) u -> In (p, (t, n)) (a_usage s) \/ (t = tick T e /\ exists t0 n0, In (p, (t0, n0)) (a_usage s))) ->
    (forall p k, ~ In (ODecoded p k) os) -> uinv (tick T e) u (tr ++ [(e, os)])).
  { intros u os HN Hu Ho.
    assert (Hd : forall p t, decoded_at p t (tr ++ [(e, os)]) -> decoded_at p t tr).
    { intros p t H. apply decoded_snoc in H. destruct H as [H|(b & cl & tk & k & _ & H)]; [exact H|]. now apply Ho in H. }
    split; [exact HN|]. split.
    - intros p t n Hin. destruct (Hu _ _ _ Hin) as [Hin'|(-> & t0 & n0 & Hin')]; destruct (I1 _ _ _ Hin') as (A & (t' & B) & D).
      + split; [lia|]. split; [exists t'; now apply decoded_mono|]. intros ->. intros t2 H2. apply D; auto.
      + split; [lia|]. split; [exists t'; now apply decoded_mono|]. intros _ t2 H2. apply Hd, I2 in H2. lia.
    - intros p t' H. apply Hd, I2 in H. lia. }
  unfold ActorModel.step. destruct (a_run s) eqn:R.
  2:{ apply Hplain; cbn; auto. }
  destruct e; cbn [fst snd].
  - unfold handle_packet. cbn in Ht. specialize (Ht now eq_refl).
    destruct (dec _ b) as [c' [k|]]; cbn [fst snd handle_decoded a_usage].
    2:{ apply Hplain; auto. intros q k0 [H|[]]; discriminate. }
    unfold tick in *; cbn in HT |- *.
    set (os := ODecoded p k :: _).
    assert (Hos : forall q k0, In (ODecoded q k0) os -> q = p).
    { intros q k0 [H|H]; [now injection H|]. exfalso. apply in_map_iff in H. destruct H as (y & Hy & _).
      unfold offer in Hy. destruct (pick hash (snd y) p); [destruct (takes c)|]; discriminate. }
    assert (Hd : forall q t, decoded_at q t (tr ++ [(EvPacket now p b closed takes, os)]) -> decoded_at q t tr \/ (q = p /\ t = now)).
    { intros q t H. apply decoded_snoc in H. destruct H as [H|(b' & cl & tk & k0 & He & H)]; [auto|].
      injection He as -> -> _ _ _. auto. }
    assert (Hp : decoded_at p now (tr ++ [(EvPacket now p b closed takes, os)])).
    { exists b, closed, takes, os, k. split; [apply in_or_app; right; now left|now left]. }
    unfold note_use.
    assert (Hset : forall t n, n <> 0 -> t <= now -> uinv now (mset peer_eqb p (t, n) (a_usage s)) (tr ++ [(EvPacket now p b closed takes, os)])).
    { intros t n Hn Htn. split; [now apply (NoDup_mset _ peer_eqb_spec)|]. split.
      - intros q t' n' Hin. apply (In_mget _ peer_eqb_spec) in Hin; [|now apply (NoDup_mset _ peer_eqb_spec)].
        rewrite (mget_mset _ peer_eqb_spec) in Hin. destruct (peer_eqb_spec q p) as [->|Hq].
        + injection Hin as <- <-. split; [lia|]. split; [now exists now|]. intros; lia.
        + apply (mget_In _ peer_eqb_spec) in Hin. destruct (I1 _ _ _ Hin) as (A & (t2 & B) & D).
          split; [lia|]. split; [exists t2; now apply decoded_mono|]. intros H0 t3 H3. apply Hd in H3.
          destruct H3 as [H3|[H3 _]]; [now apply D|congruence].
      - intros q t' H. apply Hd in H. destruct H as [H|[_ ->]]; [|lia]. apply I2 in H. lia. }
    destruct (mget peer_eqb p (a_usage s)) as [[t0 n0]|] eqn:Em; apply Hset; try lia.
    apply (mget_In _ peer_eqb_spec) in Em. apply I1 in Em. lia.
  - unfold handle_subscribe. destruct heard; cbn; apply Hplain; auto. intros q k0 [H|[]]; discriminate.
  - cbn. apply Hplain; auto. match goal with |- context [mhas ?a ?b ?c] => destruct (mhas a b c) end; cbn; intuition discriminate.
  - unfold handle_purge_peer. match goal with |- context [mhas ?a ?b ?c] => destruct (mhas a b c) end; cbn; apply Hplain; auto; try (cbn; intuition discriminate).
    + now apply (NoDup_mrem _ peer_eqb_spec).
    + intros q t n H. left. apply (In_mget _ peer_eqb_spec) in H; [|now apply (NoDup_mrem _ peer_eqb_spec)].
      rewrite (mget_mrem _ peer_eqb_spec) in H. destruct (peer_eqb q p); [discriminate|].
      now apply (mget_In _ peer_eqb_spec) in H.
  - unfold handle_purge_unused; cbn [fst snd a_usage]. apply Hplain.
    + unfold mkeys. rewrite map_map.
      rewrite (map_ext _ fst) by (intros x; unfold renew; now destruct (_ && _)).
      clear - ND. unfold mkeys in ND. induction (a_usage s) as [|x u IH]; [constructor|].
      cbn in ND. inversion ND; subst. cbn. destruct (negb _); cbn; [|auto]. constructor; [|auto].
      intros Hi. apply in_map_iff in Hi. destruct Hi as (y & Hy & Hi). apply filter_In in Hi. destruct Hi as [Hi _].
      apply H1. rewrite <- Hy. now apply in_map.
    + intros q t n H. apply in_map_iff in H. destruct H as ([q0 [t0 n0]] & Hx & H). apply filter_In in H. destruct H as [H _].
      unfold renew in Hx. cbn in Hx. destruct (_ && _).
      * injection Hx as <- <- <-. right. unfold tick; cbn. split; [reflexivity|eauto].
      * injection Hx as <- <- <-. auto.
    + cbn. intuition discriminate.
  - apply Hplain; auto. cbn; intuition discriminate.
  - apply Hplain; auto. cbn; intuition discriminate.
  - apply Hplain; auto. cbn; intuition discriminate.
  - apply Hplain; auto. cbn; intuition discriminate.
Qed.
Lemma uinv_run evs : forall T (s : actor) tr, clock_ok T evs -> uinv T (a_usage s) tr ->
  exists T', uinv T' (a_usage (fst (run s evs))) (tr ++ snd (run s evs)) /\ T <= T' /\
    (forall evs2, clock_ok T (evs ++ evs2) -> clock_ok T' evs2).
Proof.
  induction evs as [|e evs IH]; intros T s tr Hc HI.
  - exists T. cbn. rewrite app_nil_r. split; [exact HI|]. split; [lia|auto].
  - rewrite run_cons. cbn [fst snd].
    assert (Ht : forall t, time_of e = Some t -> T <= t) by (intros t E; cbn in Hc; rewrite E in Hc; tauto).
    assert (Hc' : clock_ok (tick T e) evs) by (cbn in Hc; unfold tick; destruct (time_of e); tauto).
    pose proof (uinv_step T s e tr Ht HI) as HI'.
    destruct (IH _ _ _ Hc' HI') as (T' & H1 & H2 & H3).
    exists T'. rewrite <- app_assoc in H1. split; [exact H1|].
    assert (T <= tick T e) by (unfold tick; destruct (time_of e) eqn:E; [now apply Ht|lia]).
    split; [lia|]. intros evs2 Hc2. apply H3. cbn in Hc2. unfold tick. destruct (time_of e); tauto.
Qed.
Lemma uinv_new : uinv 0 (a_usage (@actor_new C Chan)) [].
Proof.
  split; [constructor|]. split; [cbn; tauto|]. intros p t (b & cl & tk & os & k & [] & _).
Qed.

(* ---- C39 ---- *)
Lemma step_NoDup (s : actor) e : NoDup (mkeys (a_subs s)) -> NoDup (mkeys (a_subs (fst (step s e)))).
Proof.
  intros H. unfold ActorModel.step. destruct (a_run s); [|exact H].
  destruct e; cbn; try exact H.
  - unfold handle_packet. destruct (dec _ b) as [c' [k|]]; cbn; [now apply (NoDup_filter_keys)|exact H].
  - unfold handle_subscribe. destruct heard; cbn; [|apply (NoDup_mrem _ N.eqb_spec)]; now apply (NoDup_mset _ N.eqb_spec).
  - now apply (NoDup_mrem _ N.eqb_spec).
  - unfold handle_purge_peer. match goal with |- context [mhas ?a ?b ?c] => now destruct (mhas a b c) end.
Qed.
Lemma run_NoDup evs : forall (s : actor), NoDup (mkeys (a_subs s)) -> NoDup (mkeys (a_subs (fst (run s evs)))).
Proof.
  induction evs as [|e evs IH]; intros s H; [exact H|]. rewrite run_cons. cbn [fst]. now apply IH, step_NoDup.
Qed.

Lemma handed_app id (a b : list out) : handed id (a ++ b) = handed id a ++ handed id b.
Proof. unfold handed. apply flat_map_app. Qed.
Lemma new_ids_app (a b : list out) : new_ids (a ++ b) = new_ids a ++ new_ids b.
Proof. unfold new_ids. apply flat_map_app. Qed.
Lemma handed_offers id takes p k (subs : list (N * list Chan)) : NoDup (mkeys subs) ->
  handed id (map (offer hash takes p k) subs : list out) =
  match mget N.eqb id subs with
  | Some ss => match pick hash ss p with Some c => if takes c then [(c, p, k)] else [] | None => [] end
  | None => []
  end.
Proof.
  induction subs as [|[i ss] subs IH]; intros ND; [reflexivity|]. cbn in ND. inversion ND as [|? ? Hni HN]; subst.
  specialize (IH HN). cbn [map]. change (offer hash takes p k (i, ss) :: ?l) with ([offer hash takes p k (i, ss)] ++ l).
  rewrite handed_app, IH. cbn [mget]. destruct (N.eqb_spec id i) as [->|Hi].
  - apply (mget_None_notin _ N.eqb_spec) in Hni. rewrite Hni, app_nil_r. unfold offer; cbn [fst snd].
    destruct (pick hash ss p) as [c|]; [|reflexivity]. destruct (takes c); cbn; [now rewrite N.eqb_refl|reflexivity].
  - assert (H0 : handed id [offer hash takes p k (i, ss) : out] = []).
    { unfold offer; cbn [fst snd]. destruct (pick hash ss p) as [c|]; [|reflexivity].
      destruct (takes c); cbn; [|reflexivity]. destruct (N.eqb_spec i id); [congruence|reflexivity]. }
    now rewrite H0.
Qed.
Lemma new_ids_offers takes p k (subs : list (N * list Chan)) : new_ids (map (offer hash takes p k) subs : list out) = [].
Proof.
  induction subs as [|x subs IH]; [reflexivity|]. cbn. unfold offer at 1.
  destruct (pick hash (snd x) p) as [c|]; [destruct (takes c)|]; cbn; exact IH.
Qed.
Lemma decoded_offers {A} (f : peer -> Pk -> list A) takes p k (subs : list (N * list Chan)) :
  flat_map (fun o : out => match o with ODecoded q j => f q j | _ => [] end) (map (offer hash takes p k) subs) = [].
Proof.
  induction subs as [|x subs IH]; [reflexivity|]. cbn. unfold offer at 1.
  destruct (pick hash (snd x) p) as [c|]; [destruct (takes c)|]; cbn; exact IH.
Qed.

(* the state of one subscriber *)
Lemma live_step id ss s e : NoDup (mkeys (a_subs s)) -> mget N.eqb id (a_subs s) = Some ss -> id < a_next s ->
  e <> EvUnsubscribe id ->
  (forall x, In x (packets [(e, snd (step s e))]) -> forallb (fst (fst (fst x))) ss = false) ->
  mget N.eqb id (a_subs (fst (step s e))) = Some ss /\ handed id (snd (step s e)) = due hash ss (packets [(e, snd (step s e))]).
Proof.
  intros ND Hm Hid He Hcl. revert Hcl. unfold ActorModel.step. destruct (a_run s); [|cbn; destruct e; auto].
  destruct e; cbn [fst snd]; intros Hcl; try (split; [exact Hm|reflexivity]).
  - unfold handle_packet in *. destruct (dec _ b) as [c' [k|]]; [|split; [exact Hm|reflexivity]].
    cbn [handle_decoded fst snd a_subs] in *.
    assert (Hp : packets [(EvPacket now p b closed takes, (ODecoded p k : out) :: map (offer hash takes p k) (filter (keep_open closed) (a_subs s)))] = [(closed, takes, p, k)]).
    { unfold packets. cbn. rewrite app_nil_r. f_equal.
      apply (decoded_offers (fun q j => [(closed, takes, q, j)])). }
    rewrite Hp in *. specialize (Hcl _ (or_introl eq_refl)). cbn in Hcl.
    rewrite (mget_filter _ N.eqb_spec) by exact ND. rewrite Hm. unfold keep_open at 1; cbn [snd]. rewrite Hcl; cbn [negb].
    split; [reflexivity|].
    change (ODecoded p k :: ?l) with ([ODecoded p k] ++ l). rewrite handed_app. cbn [handed flat_map app].
    rewrite handed_offers by (now apply (NoDup_filter_keys)).
    rewrite (mget_filter _ N.eqb_spec) by exact ND. rewrite Hm. unfold keep_open at 1; cbn [snd]. rewrite Hcl; cbn [negb].
    rewrite pick_serving. cbn. destruct (serving hash ss p) as [c|]; [|reflexivity]. now destruct (takes c).
  - unfold handle_subscribe. destruct heard; cbn.
    + rewrite (mget_mset _ N.eqb_spec). destruct (N.eqb_spec id (a_next s)); [lia|]. now split.
    + rewrite (mget_mrem _ N.eqb_spec), (mget_mset _ N.eqb_spec). destruct (N.eqb_spec id (a_next s)); [lia|]. now split.
  - cbn. rewrite (mget_mrem _ N.eqb_spec). destruct (N.eqb_spec id id0) as [->|]; [congruence|]. split; [exact Hm|].
    now destruct (mhas N.eqb id0 (a_subs s)).
  - unfold handle_purge_peer. destruct (mhas peer_eqb p (a_clients s)); now split.
Qed.
Lemma gone_step id s e : NoDup (mkeys (a_subs s)) -> mget N.eqb id (a_subs s) = None -> id < a_next s ->
  mget N.eqb id (a_subs (fst (step s e))) = None /\ handed id (snd (step s e)) = [].
Proof.
  intros ND Hm Hid. unfold ActorModel.step. destruct (a_run s); [|now split].
  destruct e; cbn [fst snd]; try (split; [exact Hm|reflexivity]).
  - unfold handle_packet. destruct (dec _ b) as [c' [k|]]; [|now split].
    cbn [handle_decoded fst snd a_subs].
    rewrite (mget_filter _ N.eqb_spec) by exact ND. rewrite Hm. split; [reflexivity|].
    change (ODecoded p k :: ?l) with ([ODecoded p k] ++ l). rewrite handed_app. cbn [handed flat_map app].
    rewrite handed_offers by (now apply (NoDup_filter_keys)).
    now rewrite (mget_filter _ N.eqb_spec), Hm by exact ND.
  - unfold handle_subscribe. destruct heard; cbn.
    + rewrite (mget_mset _ N.eqb_spec). destruct (N.eqb_spec id (a_next s)); [lia|]. now split.
    + rewrite (mget_mrem _ N.eqb_spec), (mget_mset _ N.eqb_spec). destruct (N.eqb_spec id (a_next s)); [lia|]. now split.
  - cbn. rewrite (mget_mrem _ N.eqb_spec), Hm. split; [now destruct (id =? id0)|].
    now destruct (mhas N.eqb id0 (a_subs s)).
  - unfold handle_purge_peer. destruct (mhas peer_eqb p (a_clients s)); now split.
Qed.
Lemma subscriptions_cons e evs : subscriptions (e :: evs) = (if is_subscribe e then 1 else 0) + subscriptions evs.
Proof using. clear fresh dec hash. unfold subscriptions, blen. cbn [filter]. destruct (is_subscribe e); cbn [length]; lia. Qed.
Lemma subscriptions_one e : subscriptions [e] = if is_subscribe e then 1 else 0.
Proof using. clear fresh dec hash. unfold subscriptions. cbn [filter]. now destruct (is_subscribe e). Qed.
Lemma subscriptions_app (a b : list event) : subscriptions (a ++ b) = subscriptions a + subscriptions b.
Proof using. clear fresh dec hash. unfold subscriptions. rewrite filter_app'. unfold blen. rewrite app_length. lia. Qed.
Lemma step_next s e : a_next s + subscriptions [e] < 2 ^ 32 -> a_next s <= a_next (fst (step s e)) <= a_next s + subscriptions [e].
Proof.
  unfold ActorModel.step. destruct (a_run s); [|cbn; lia].
  destruct e; cbn [fst snd]; try (cbn; lia).
  - intros _. unfold handle_packet. destruct (dec _ b) as [c' [k|]]; cbn; lia.
  - intros H. assert (H' : a_next s + 1 < 2 ^ 32) by exact H.
    assert (E : as_u32 (a_next s + 1) = a_next s + 1) by (unfold as_u32; apply N.mod_small; exact H').
    unfold handle_subscribe. destruct heard; cbn [fst a_next]; rewrite E; change (subscriptions [EvSubscribe senders _]) with 1; lia.
  - intros _. unfold handle_purge_peer. destruct (mhas _ _ _); cbn; lia.
Qed.
Lemma run_next evs : forall s, a_next s + subscriptions evs < 2 ^ 32 -> a_next s <= a_next (fst (run s evs)) <= a_next s + subscriptions evs.
Proof.
  induction evs as [|e evs IH]; intros s H; [cbn; lia|]. rewrite run_cons; cbn [fst].
  rewrite subscriptions_cons in *.
  assert (E : subscriptions [e] = if is_subscribe e then 1 else 0) by apply subscriptions_one.
  pose proof (step_next s e) as Hs. rewrite E in Hs. specialize (Hs ltac:(lia)).
  specialize (IH (fst (step s e)) ltac:(lia)). lia.
Qed.
Lemma gone_run id evs : forall s, NoDup (mkeys (a_subs s)) -> mget N.eqb id (a_subs s) = None -> id < a_next s ->
  a_next s + subscriptions evs < 2 ^ 32 -> handed id (outputs (snd (run s evs))) = [].
Proof.
  induction evs as [|e evs IH]; intros s ND Hm Hid Hb; [reflexivity|].
  rewrite run_cons; cbn [snd]. rewrite outputs_cons, handed_app.
  destruct (gone_step id s e ND Hm Hid) as [H1 ->]. cbn [app].
  rewrite subscriptions_cons in Hb.
  assert (E : subscriptions [e] = if is_subscribe e then 1 else 0) by apply subscriptions_one.
  pose proof (step_next s e) as Hs. rewrite E in Hs. specialize (Hs ltac:(lia)).
  apply IH; [now apply step_NoDup|exact H1|lia|lia].
Qed.
Lemma packets_cons x (tr : list (event * list out)) : packets (x :: tr) = packets [x] ++ packets tr.
Proof. unfold packets. cbn. now rewrite app_nil_r. Qed.
Lemma due_app ss a b : due hash ss (a ++ b) = due hash ss a ++ @due Pk Chan hash ss b.
Proof. unfold due. apply flat_map_app. Qed.
Lemma live_run id ss evs : forall s, NoDup (mkeys (a_subs s)) -> mget N.eqb id (a_subs s) = Some ss -> id < a_next s ->
  a_next s + subscriptions evs < 2 ^ 32 -> ~ In (EvUnsubscribe id) evs ->
  (forall x, In x (packets (snd (run s evs))) -> forallb (fst (fst (fst x))) ss = false) ->
  handed id (outputs (snd (run s evs))) = due hash ss (packets (snd (run s evs))).
Proof.
  induction evs as [|e evs IH]; intros s ND Hm Hid Hb Hu Hcl; [reflexivity|].
  rewrite run_cons in *; cbn [snd] in *. rewrite outputs_cons, handed_app.
  rewrite packets_cons, due_app. rewrite packets_cons in Hcl.
  destruct (live_step id ss s e ND Hm Hid) as [H1 H2].
  { intros ->. apply Hu. now left. }
  { intros x Hx. apply Hcl, in_or_app; now left. }
  rewrite H2. f_equal.
  rewrite subscriptions_cons in Hb.
  assert (E : subscriptions [e] = if is_subscribe e then 1 else 0) by apply subscriptions_one.
  pose proof (step_next s e) as Hs. rewrite E in Hs. specialize (Hs ltac:(lia)).
  apply IH; [now apply step_NoDup|exact H1|lia|lia| |].
  - intros H. apply Hu. now right.
  - intros x Hx. apply Hcl, in_or_app; now right.
Qed.

(* ---- ids ---- *)
Lemma step_new_ids s e : a_next s + subscriptions [e] < 2 ^ 32 ->
  new_ids (snd (step s e)) = [] \/ (new_ids (snd (step s e)) = [a_next s] /\ a_next (fst (step s e)) = a_next s + 1).
Proof.
  intros H. unfold ActorModel.step. destruct (a_run s); [|now left].
  destruct e; cbn [fst snd]; try (now left).
  - left. unfold handle_packet. destruct (dec _ b) as [c' [k|]]; cbn; [|reflexivity]. apply new_ids_offers.
  - unfold handle_subscribe. destruct heard; [right|now left]. cbn. split; [reflexivity|].
    unfold as_u32. apply N.mod_small. exact H.
  - left. cbn. now destruct (mhas N.eqb id (a_subs s)).
  - left. unfold handle_purge_peer. now destruct (mhas peer_eqb p (a_clients s)).
Qed.
Lemma run_new_ids evs : forall s, a_next s + subscriptions evs < 2 ^ 32 ->
  NoDup (new_ids (outputs (snd (run s evs)))) /\ Forall (fun i => a_next s <= i) (new_ids (outputs (snd (run s evs)))).
Proof.
  induction evs as [|e evs IH]; intros s H; [split; constructor|].
  rewrite run_cons; cbn [snd]. rewrite outputs_cons, new_ids_app.
  rewrite subscriptions_cons in H.
  assert (E : subscriptions [e] = if is_subscribe e then 1 else 0) by apply subscriptions_one.
  pose proof (step_next s e) as Hs. rewrite E in Hs. specialize (Hs ltac:(lia)).
  destruct (IH (fst (step s e)) ltac:(lia)) as [H1 H2].
  destruct (step_new_ids s e ltac:(lia)) as [->|[-> Hn]]; cbn [app].
  - split; [exact H1|]. eapply Forall_impl; [|exact H2]. cbn. lia.
  - split.
    + constructor; [|exact H1]. intros Hi. rewrite Forall_forall in H2. apply H2 in Hi. lia.
    + constructor; [lia|]. eapply Forall_impl; [|exact H2]. cbn. lia.
Qed.

(* one address, one channel *)
Lemma serve_step id ss s e : NoDup (mkeys (a_subs s)) -> mget N.eqb id (a_subs s) = Some ss -> id < a_next s ->
  (mget N.eqb id (a_subs (fst (step s e))) = Some ss \/ mget N.eqb id (a_subs (fst (step s e))) = None) /\
  Forall (fun x => serving hash ss (snd (fst x)) = Some (fst (fst x))) (handed id (snd (step s e))).
Proof.
  intros ND Hm Hid. unfold ActorModel.step. destruct (a_run s); [|split; [now left|constructor]].
  destruct e; cbn [fst snd]; try (split; [now left|constructor]).
  - unfold handle_packet. destruct (dec _ b) as [c' [k|]]; [|split; [now left|constructor]].
    cbn [handle_decoded fst snd a_subs].
    change (ODecoded p k :: ?l) with ([ODecoded p k] ++ l). rewrite handed_app. cbn [handed flat_map app].
    rewrite handed_offers by (now apply (NoDup_filter_keys)).
    rewrite (mget_filter _ N.eqb_spec) by exact ND. rewrite Hm. unfold keep_open; cbn [snd].
    destruct (negb (forallb closed ss)); split; auto; try (constructor; fail).
    rewrite pick_serving. destruct (serving hash ss p) as [c|] eqn:Es; [|constructor]. destruct (takes c); repeat constructor. cbn. now rewrite Es.
  - unfold handle_subscribe. destruct heard; cbn.
    + rewrite (mget_mset _ N.eqb_spec). destruct (N.eqb_spec id (a_next s)); [lia|]. split; [now left|constructor].
    + rewrite (mget_mrem _ N.eqb_spec), (mget_mset _ N.eqb_spec). destruct (N.eqb_spec id (a_next s)); [lia|]. split; [now left|constructor].
  - cbn. rewrite (mget_mrem _ N.eqb_spec). split; [destruct (id =? id0); auto|].
    destruct (mhas N.eqb id0 (a_subs s)); constructor.
  - unfold handle_purge_peer. destruct (mhas peer_eqb p (a_clients s)); (split; [now left|constructor]).
Qed.
Lemma serve_run id ss evs : forall s, NoDup (mkeys (a_subs s)) -> mget N.eqb id (a_subs s) = Some ss -> id < a_next s ->
  a_next s + subscriptions evs < 2 ^ 32 ->
  Forall (fun x => serving hash ss (snd (fst x)) = Some (fst (fst x))) (handed id (outputs (snd (run s evs)))).
Proof.
  induction evs as [|e evs IH]; intros s ND Hm Hid Hb; [constructor|].
  rewrite run_cons; cbn [snd]. rewrite outputs_cons, handed_app.
  rewrite subscriptions_cons in Hb.
  assert (E : subscriptions [e] = if is_subscribe e then 1 else 0) by apply subscriptions_one.
  pose proof (step_next s e) as Hs. rewrite E in Hs. specialize (Hs ltac:(lia)).
  destruct (serve_step id ss s e ND Hm Hid) as [H1 H2]. apply Forall_app. split; [exact H2|].
  destruct H1 as [H1|H1].
  - apply IH; [now apply step_NoDup|exact H1|lia|lia].
  - rewrite gone_run; [constructor|now apply step_NoDup|exact H1|lia|lia].
Qed.
(* a subscriber not yet known *)
Lemma later_step id s e : NoDup (mkeys (a_subs s)) -> mget N.eqb id (a_subs s) = None -> a_next s <= id -> a_next s + subscriptions [e] < 2 ^ 32 ->
  handed id (snd (step s e)) = [] /\
  ((mget N.eqb id (a_subs (fst (step s e))) = None /\ a_next (fst (step s e)) <= id) \/
   (mget N.eqb id (a_subs (fst (step s e))) = None /\ id < a_next (fst (step s e))) \/
   (exists ss, mget N.eqb id (a_subs (fst (step s e))) = Some ss /\ In id (new_ids (snd (step s e))) /\ id < a_next (fst (step s e)))).
Proof.
  intros ND Hm Hid Hb. revert Hb. unfold ActorModel.step. destruct (a_run s); [|cbn; auto].
  destruct e; cbn [fst snd]; try (cbn; auto; fail).
  - intros _. unfold handle_packet. destruct (dec _ b) as [c' [k|]]; [|cbn; auto].
    cbn [handle_decoded fst snd a_subs a_next].
    rewrite (mget_filter _ N.eqb_spec) by exact ND. rewrite Hm. split; [|auto].
    change (ODecoded p k :: ?l) with ([ODecoded p k] ++ l). rewrite handed_app. cbn [handed flat_map app].
    rewrite handed_offers by (now apply (NoDup_filter_keys)).
    now rewrite (mget_filter _ N.eqb_spec), Hm by exact ND.
  - intros H. assert (H' : a_next s + 1 < 2 ^ 32) by exact H.
    assert (E : as_u32 (a_next s + 1) = a_next s + 1) by (unfold as_u32; apply N.mod_small; exact H').
    unfold handle_subscribe. destruct heard; cbn [fst snd a_subs a_next]; rewrite E; (split; [reflexivity|]).
    + rewrite (mget_mset _ N.eqb_spec). destruct (N.eqb_spec id (a_next s)) as [->|].
      * right; right. exists senders. split; [reflexivity|]. cbn. split; [now left|lia].
      * left. split; [exact Hm|lia].
    + rewrite (mget_mrem _ N.eqb_spec), (mget_mset _ N.eqb_spec). destruct (N.eqb_spec id (a_next s)) as [->|].
      * right; left. split; [reflexivity|lia].
      * left. split; [exact Hm|lia].
  - intros _. cbn. rewrite (mget_mrem _ N.eqb_spec), Hm. split; [now destruct (mhas N.eqb id0 (a_subs s))|].
    left. split; [now destruct (id =? id0)|exact Hid].
  - intros _. unfold handle_purge_peer. destruct (mhas peer_eqb p (a_clients s)); cbn; auto.
Qed.
Lemma later_run id evs : forall s, NoDup (mkeys (a_subs s)) -> mget N.eqb id (a_subs s) = None ->
  a_next s <= id -> a_next s + subscriptions evs < 2 ^ 32 ->
  handed id (outputs (snd (run s evs))) = [] \/
  (In id (new_ids (outputs (snd (run s evs)))) /\
   exists ss, Forall (fun x => serving hash ss (snd (fst x)) = Some (fst (fst x))) (handed id (outputs (snd (run s evs))))).
Proof.
  induction evs as [|e evs IH]; intros s ND Hm Hid Hb; [now left|].
  rewrite run_cons; cbn [snd]. rewrite outputs_cons, handed_app, new_ids_app.
  rewrite subscriptions_cons in Hb.
  assert (E : subscriptions [e] = if is_subscribe e then 1 else 0) by apply subscriptions_one.
  pose proof (step_next s e) as Hs. rewrite E in Hs. specialize (Hs ltac:(lia)).
  destruct (later_step id s e ND Hm Hid ltac:(lia)) as [-> H]. cbn [app].
  destruct H as [[H1 H2]|[[H1 H2]|(ss & H1 & H2 & H3)]].
  - destruct (IH _ (step_NoDup s e ND) H1 H2 ltac:(lia)) as [H|[Hi H]]; [now left|right].
    split; [apply in_or_app; now right|exact H].
  - left. apply gone_run; [now apply step_NoDup|exact H1|exact H2|lia].
  - right. split; [apply in_or_app; now left|]. exists ss. apply serve_run; [now apply step_NoDup|exact H1|exact H3|lia].
Qed.
Lemma sub_new : NoDup (mkeys (a_subs (@actor_new C Chan))).
Proof. constructor. Qed.
Lemma live_subs_bound id evs : forall s, NoDup (mkeys (a_subs s)) -> (forall i, mget N.eqb i (a_subs s) <> None -> i < a_next s) ->
  a_next s + subscriptions evs < 2 ^ 32 ->
  mget N.eqb id (a_subs (fst (run s evs))) <> None -> id < a_next (fst (run s evs)).
Proof.
  induction evs as [|e evs IH]; intros s ND HI Hb; [apply HI|].
  rewrite run_cons; cbn [fst]. rewrite subscriptions_cons in Hb.
  assert (E : subscriptions [e] = if is_subscribe e then 1 else 0) by apply subscriptions_one.
  pose proof (step_next s e) as Hs. rewrite E in Hs. specialize (Hs ltac:(lia)).
  apply IH; [now apply step_NoDup| |lia].
  intros i Hi. destruct (mget N.eqb i (a_subs s)) eqn:Em.
  - assert (i < a_next s) by (apply HI; congruence). lia.
  - destruct (N.lt_ge_cases i (a_next s)) as [Hl|Hl]; [lia|].
    destruct (later_step i s e ND Em Hl ltac:(lia)) as [_ [[H _]|[[H _]|(ss & H & _ & H3)]]]; [congruence|congruence|exact H3].
Qed.

Lemma new_ids_below evs : forall s, a_next s + subscriptions evs < 2 ^ 32 ->
  forall id, In id (new_ids (outputs (snd (run s evs)))) -> id < a_next (fst (run s evs)).
Proof.
  induction evs as [|e evs IH]; intros s Hb id Hi; [destruct Hi|].
  rewrite run_cons in *; cbn [fst snd] in *. rewrite outputs_cons, new_ids_app in Hi. rewrite subscriptions_cons in Hb.
  assert (E : subscriptions [e] = if is_subscribe e then 1 else 0) by apply subscriptions_one.
  pose proof (step_next s e) as Hs. rewrite E in Hs. specialize (Hs ltac:(lia)).
  apply in_app_or in Hi. destruct Hi as [Hi|Hi]; [|apply IH; [lia|exact Hi]].
  pose proof (run_next evs (fst (step s e)) ltac:(lia)).
  destruct (step_new_ids s e ltac:(lia)) as [E0|[E0 Hn]]; rewrite E0 in Hi; [destruct Hi|destruct Hi as [<-|[]]]. lia.
Qed.
Lemma same_or_gone id ss evs : forall s, NoDup (mkeys (a_subs s)) -> mget N.eqb id (a_subs s) = Some ss -> id < a_next s ->
  a_next s + subscriptions evs < 2 ^ 32 ->
  mget N.eqb id (a_subs (fst (run s evs))) = Some ss \/ mget N.eqb id (a_subs (fst (run s evs))) = None.
Proof.
  induction evs as [|e evs IH]; intros s ND Hm Hid Hb; [now left|].
  rewrite run_cons; cbn [fst]. rewrite subscriptions_cons in Hb.
  assert (E : subscriptions [e] = if is_subscribe e then 1 else 0) by apply subscriptions_one.
  pose proof (step_next s e) as Hs. rewrite E in Hs. specialize (Hs ltac:(lia)).
  destruct (serve_step id ss s e ND Hm Hid) as [[H1|H1] _].
  - apply IH; [now apply step_NoDup|exact H1|lia|lia].
  - right. clear IH Hm. assert (Hid' : id < a_next (fst (step s e))) by lia.
    assert (Hb' : a_next (fst (step s e)) + subscriptions evs < 2 ^ 32) by lia.
    pose proof (step_NoDup s e ND) as ND'. revert H1 Hid' Hb' ND'. generalize (fst (step s e)). clear.
    induction evs as [|e evs IH]; intros s H1 Hid Hb ND; [exact H1|].
    rewrite run_cons; cbn [fst]. rewrite subscriptions_cons in Hb.
    assert (E : subscriptions [e] = if is_subscribe e then 1 else 0) by apply subscriptions_one.
    pose proof (step_next s e) as Hs. rewrite E in Hs. specialize (Hs ltac:(lia)).
    destruct (gone_step id s e ND H1 Hid) as [H2 _]. apply IH; [exact H2|lia|lia|now apply step_NoDup].
Qed.
Lemma closed_step id ss s now q b closed takes p k : NoDup (mkeys (a_subs s)) ->
  mget N.eqb id (a_subs s) = Some ss \/ mget N.eqb id (a_subs s) = None -> forallb closed ss = true ->
  In (ODecoded p k) (snd (step s (EvPacket now q b closed takes))) ->
  handed id (snd (step s (EvPacket now q b closed takes))) = [] /\
  mget N.eqb id (a_subs (fst (step s (EvPacket now q b closed takes)))) = None.
Proof.
  intros ND Hm Hcl. unfold ActorModel.step. destruct (a_run s); [|intros []].
  unfold handle_packet. destruct (dec _ b) as [c' [j|]].
  2:{ intros [H|[]]; discriminate. }
  cbn [handle_decoded fst snd a_subs]. intros _.
  assert (H : mget N.eqb id (filter (keep_open closed) (a_subs s)) = None).
  { rewrite (mget_filter _ N.eqb_spec) by exact ND. destruct Hm as [-> | ->]; [|reflexivity]. unfold keep_open; cbn. now rewrite Hcl. }
  split; [|exact H]. change (ODecoded q j :: ?l) with ([ODecoded q j] ++ l). rewrite handed_app. cbn [handed flat_map app].
  rewrite handed_offers by (now apply (NoDup_filter_keys)). now rewrite H.
Qed.
(* the id counter after n subscriptions *)
Lemma wrap_run n : forall s, a_run s = true -> a_next s < 2 ^ 32 ->
  new_ids (outputs (snd (run s (repeat (EvSubscribe [] true) n)))) = map (fun i => (a_next s + N.of_nat i) mod 2 ^ 32) (seq 0 n).
Proof.
  induction n as [|n IH]; intros s R Hs; [reflexivity|].
  cbn [repeat]. rewrite run_cons. cbn [snd]. rewrite outputs_cons, new_ids_app.
  assert (E : step s (EvSubscribe [] true) = (mkActor (as_u32 (a_next s + 1)) (mset N.eqb (a_next s) [] (a_subs s)) (a_usage s) (a_clients s) true, [OSubscribed (a_next s)]))
    by (unfold ActorModel.step; now rewrite R).
  rewrite E. cbn [fst snd]. rewrite IH; [|reflexivity|unfold as_u32; apply N.mod_lt; discriminate].
  cbn [a_next new_ids flat_map app seq map]. f_equal.
  - rewrite N.add_0_r. symmetry. now apply N.mod_small.
  - rewrite <- seq_shift, map_map. apply map_ext. intros i. unfold as_u32. change 4294967296 with (2 ^ 32).
    rewrite N.add_mod_idemp_l by discriminate. f_equal. lia.
Qed.
Lemma wrap_ids : ~ NoDup (new_ids (outputs (snd (run (actor_new : actor) (repeat (EvSubscribe [] true) (N.to_nat (2 ^ 32 + 1))))))).
Proof.
  rewrite wrap_run; [|reflexivity|reflexivity].
  intros H. rewrite NoDup_nth_error in H.
  specialize (H 0%nat (N.to_nat (2 ^ 32))).
  rewrite map_length, seq_length in H. specialize (H ltac:(lia)).
  rewrite !nth_error_map in H.
  assert (E : forall i, (i < N.to_nat (2 ^ 32 + 1))%nat -> nth_error (seq 0 (N.to_nat (2 ^ 32 + 1))) i = Some i).
  { intros i Hi. rewrite (nth_error_nth' _ 0%nat) by now rewrite seq_length. now rewrite seq_nth. }
  rewrite !E in H by lia. cbn [option_map] in H. rewrite N2Nat.id in H.
  specialize (H eq_refl). lia.
Qed.
End Proofs.
