(* Proofs about BGP peers, their handles and controllers. *)
From Coq Require Import List Bool Arith Lia.
From Verif Require Import LpModel LpSpec.
Import ListNotations.

Lemma upd_length {A} n (f : A -> A) l : length (upd n f l) = length l.
Proof. revert n. induction l as [|x l IH]; intros [|n]; cbn; auto. Qed.
Lemma upd_nth {A} n (f : A -> A) l m : nth_error (upd n f l) m = if m =? n then option_map f (nth_error l m) else nth_error l m.
Proof.
  revert n m. induction l as [|x l IH]; intros [|n] [|m]; cbn; auto.
  destruct (m =? n); reflexivity.
Qed.
Lemma has_In c l : existsb (Nat.eqb c) l = true <-> In c l.
Proof.
  rewrite existsb_exists. split; [intros (x & Hi & E); apply Nat.eqb_eq in E; subst; exact Hi|].
  intros H. exists c. split; [exact H|apply Nat.eqb_refl].
Qed.
Lemma has_nIn c l : existsb (Nat.eqb c) l = false <-> ~ In c l.
Proof. rewrite <- has_In. destruct (existsb (Nat.eqb c) l); split; intros H; congruence || (exfalso; apply H; reflexivity) || discriminate. Qed.
Lemma find_key_some k l g : find_key k l = Some g -> In (k, g) l.
Proof.
  unfold find_key. destruct (find _ l) as [[k' g']|] eqn:E; [|discriminate]. apply find_some in E. cbn in E. destruct E as [Hi E].
  apply Nat.eqb_eq in E. cbn. intros H. injection H as <-. subst. exact Hi.
Qed.
Lemma find_key_none k l : find_key k l = None <-> ~ In k (map fst l).
Proof.
  unfold find_key. split.
  - intros H Hi. apply in_map_iff in Hi. destruct Hi as ([k' g] & <- & Hi). destruct (find _ l) as [p|] eqn:E; [discriminate|].
    pose proof (find_none _ _ E _ Hi) as C. cbn in C. rewrite Nat.eqb_refl in C. discriminate.
  - intros H. destruct (find _ l) as [p|] eqn:E; [|reflexivity]. exfalso. apply H. apply find_some in E. destruct E as [Hi E].
    apply Nat.eqb_eq in E. rewrite <- E. apply in_map. exact Hi.
Qed.

(* ---- accepted commands ---- *)
Definition acc (cs : list (nat * command)) (rf : list nat) (g : nat) : list nat :=
  filter (fun c => negb (existsb (Nat.eqb c) rf) &&
                   match nth_error cs c with Some (g', _) => g' =? g | None => false end) (seq 0 (length cs)).
Lemma acc_eq s g : accepted s g = acc (calls s) (refused s) g.
Proof. reflexivity. Qed.
Lemma acc_old cs rf rf' x g : (forall c, c < length cs -> existsb (Nat.eqb c) rf' = existsb (Nat.eqb c) rf) ->
  filter (fun c => negb (existsb (Nat.eqb c) rf') &&
                   match nth_error (cs ++ [x]) c with Some (g', _) => g' =? g | None => false end) (seq 0 (length cs)) = acc cs rf g.
Proof.
  intros H. unfold acc. apply filter_ext_in. intros c Hc. apply in_seq in Hc. rewrite H by lia.
  rewrite nth_error_app1 by lia. reflexivity.
Qed.
Lemma acc_snoc cs rf x g : Forall (fun c => c < length cs) rf ->
  acc (cs ++ [x]) rf g = acc cs rf g ++ (if fst x =? g then [length cs] else []).
Proof.
  intros Hf. unfold acc at 1. rewrite app_length. cbn [length]. rewrite seq_app, filter_app. cbn [seq filter].
  rewrite (acc_old cs rf rf x g (fun _ _ => eq_refl)). f_equal. rewrite Nat.add_0_l, nth_error_app2, Nat.sub_diag by lia. cbn [nth_error].
  replace (existsb (Nat.eqb (length cs)) rf) with false.
  2:{ symmetry. apply has_nIn. intros H. rewrite Forall_forall in Hf. specialize (Hf _ H). lia. }
  destruct x as [g' m]. cbn. destruct (g' =? g); reflexivity.
Qed.
Lemma acc_refused cs rf x g : acc (cs ++ [x]) (length cs :: rf) g = acc cs rf g.
Proof.
  unfold acc at 1. rewrite app_length. cbn [length]. rewrite seq_app, filter_app. cbn [seq filter].
  rewrite (acc_old cs rf (length cs :: rf) x g).
  - cbn [existsb]. rewrite Nat.add_0_l, Nat.eqb_refl. cbn. apply app_nil_r.
  - intros c Hc. cbn [existsb]. replace (c =? length cs) with false by (symmetry; apply Nat.eqb_neq; lia). reflexivity.
Qed.
Lemma acc_lt cs rf g c : In c (acc cs rf g) -> c < length cs.
Proof. unfold acc. rewrite filter_In, in_seq. lia. Qed.
Lemma acc_nodup cs rf g : NoDup (acc cs rf g).
Proof. apply NoDup_filter, seq_NoDup. Qed.

(* ---- the invariant ---- *)
Definition task_ok (cs : list (nat * command)) (rf : list nat) (ans : list (nat * list nat)) (g : nat) (t : task) : Prop :=
  (exists rest, acc cs rf g = t_handled t ++ t_queue t ++ rest /\ (running t = true -> rest = [])) /\
  (t_end t = Some Aborted -> t_controller t = false) /\
  (running t = false -> t_queue t = []) /\
  (forall c, In c (t_handled t) -> (exists g', nth_error cs c = Some (g', Query)) -> exists l, In (c, l) ans).
Record Inv (s : state) : Prop := {
  I_keys : NoDup (map fst (registered s));
  I_reg : forall k g, In (k, g) (registered s) -> exists t, nth_error (tasks s) g = Some t /\ t_key t = k /\ t_controller t = true;
  I_calls : forall c g m, nth_error (calls s) c = Some (g, m) -> g < length (tasks s);
  I_refused : Forall (fun c => c < length (calls s)) (refused s);
  I_task : forall g t, nth_error (tasks s) g = Some t -> task_ok (calls s) (refused s) (answers s) g t;
  I_ans : forall c l, In (c, l) (answers s) ->
    exists g, nth_error (calls s) c = Some (g, Query) /\ exists rest, acc (calls s) (refused s) g = l ++ c :: rest }.

Lemma nth_lt {A} (l : list A) n x : nth_error l n = Some x -> n < length l.
Proof. intros H. apply nth_error_Some. congruence. Qed.
Lemma nth_snoc {A} (l : list A) x n : nth_error (l ++ [x]) n = if n <? length l then nth_error l n else if n =? length l then Some x else None.
Proof.
  destruct (Nat.ltb_spec n (length l)); [apply nth_error_app1; assumption|].
  rewrite nth_error_app2 by assumption. destruct (Nat.eqb_spec n (length l)) as [->|]; [rewrite Nat.sub_diag; reflexivity|].
  destruct (n - length l) as [|[|m]] eqn:E; [lia|reflexivity|reflexivity].
Qed.

Lemma inv_init : Inv init.
Proof.
  split; cbn.
  - constructor.
  - intros k g [].
  - intros [|c] g m; discriminate.
  - constructor.
  - intros [|g] t; discriminate.
  - intros c l [].
Qed.

(* a change of one task that keeps its key and controller *)
Lemma inv_upd s g f : Inv s ->
  (forall t, nth_error (tasks s) g = Some t -> t_key (f t) = t_key t /\ (In g (map snd (registered s)) -> t_controller (f t) = t_controller t) /\
     task_ok (calls s) (refused s) (answers s) g (f t)) ->
  Inv (State (upd g f (tasks s)) (registered s) (calls s) (refused s) (answers s)).
Proof.
  intros [K R C F T A] H. split; cbn [tasks registered calls refused answers]; auto.
  - intros k g' Hi. destruct (R k g' Hi) as (t & Et & Ek & Ec). rewrite upd_nth. destruct (Nat.eqb_spec g' g) as [->|]; [|eauto].
    rewrite Et. destruct (H t Et) as (E1 & E2 & _). exists (f t). split; [reflexivity|]. split; [congruence|].
    rewrite E2; [exact Ec|]. change g with (snd (k, g)). apply in_map. exact Hi.
  - intros c g' m Hc. rewrite upd_length. eauto.
  - intros g' t Ht. rewrite upd_nth in Ht. destruct (Nat.eqb_spec g' g) as [->|]; [|apply T; exact Ht].
    destruct (nth_error (tasks s) g) as [t0|] eqn:E; [|discriminate]. injection Ht as <-. apply (H t0 eq_refl).
Qed.

Lemma inv_send s g m s' : Inv s -> send s g m = Some s' -> Inv s'.
Proof.
  intros I H. unfold send in H. destruct (nth_error (tasks s) g) as [t|] eqn:Et; [|discriminate].
  destruct I as [K R C F T A].
  assert (F1 : Forall (fun c => c < length (calls s ++ [(g, m)])) (refused s)).
  { eapply Forall_impl; [|exact F]. cbn. intros c Hc. rewrite app_length. cbn. lia. }
  assert (C1 : forall n, n = length (tasks s) -> forall c g' m', nth_error (calls s ++ [(g, m)]) c = Some (g', m') -> g' < n).
  { intros n -> c g' m' Hc. rewrite nth_snoc in Hc. destruct (c <? length (calls s)); [eauto|].
    destruct (c =? length (calls s)); [|discriminate]. injection Hc as <- _. eapply nth_lt; exact Et. }
  assert (Q : forall c, c < length (calls s) -> nth_error (calls s ++ [(g, m)]) c = nth_error (calls s) c).
  { intros c Hc. apply nth_error_app1. exact Hc. }
  destruct (running t) eqn:Er; injection H as <-; split; cbn [tasks registered calls refused answers]; auto.
  - intros k g' Hi. destruct (R k g' Hi) as (t' & Et' & Ek & Ec). rewrite upd_nth. destruct (Nat.eqb_spec g' g) as [->|]; [|eauto].
    rewrite Et'. eexists. split; [reflexivity|]. auto.
  - apply C1. apply upd_length.
  - intros g' t' Ht. rewrite upd_nth in Ht.
    assert (G : exists t0, nth_error (tasks s) g' = Some t0 /\ t' = if g' =? g then Task (t_key t0) (t_end t0) (t_queue t0 ++ [length (calls s)]) (t_handled t0) (t_controller t0) (t_receiver t0) else t0).
    { destruct (g' =? g); [|eauto]. destruct (nth_error (tasks s) g') as [t0|]; [|discriminate]. injection Ht as <-. eauto. }
    destruct G as (t0 & Et0 & ->). destruct (T g' t0 Et0) as ((rest & E & Er0) & T2 & T3 & T4).
    unfold task_ok. rewrite acc_snoc by exact F. cbn [fst]. rewrite Nat.eqb_sym.
    assert (HQ : forall c, In c (t_handled t0) -> c < length (calls s)).
    { intros c Hc. apply (acc_lt (calls s) (refused s) g'). rewrite E. apply in_or_app. auto. }
    destruct (Nat.eqb_spec g' g) as [->|Hn].
    + rewrite Et0 in Et. injection Et as ->. cbn [t_handled t_queue t_end t_controller]. repeat split.
      * exists []. rewrite E, (Er0 Er), !app_nil_r, <- !app_assoc. auto.
      * exact T2.
      * intros Hr. unfold running in Hr, Er. cbn in Hr. destruct (t_end t); discriminate.
      * intros c Hc (g'' & Hq). rewrite Q in Hq by auto. apply T4; eauto.
    + rewrite app_nil_r. repeat split; eauto. intros c Hc (g'' & Hq). rewrite Q in Hq by auto. apply T4; eauto.
  - intros c l Hi. destruct (A c l Hi) as (g' & Hc & rest & E). exists g'. split.
    + rewrite Q; [exact Hc|]. eapply nth_lt; exact Hc.
    + rewrite acc_snoc by exact F. rewrite E, <- app_assoc. cbn. eauto.
  - eapply C1; eauto.
  - constructor; [rewrite app_length; cbn; lia|exact F1].
  - intros g' t' Ht. destruct (T g' t' Ht) as ((rest & E & Er0) & T2 & T3 & T4). unfold task_ok. rewrite acc_refused.
    repeat split; eauto. intros c Hc (g'' & Hq). rewrite Q in Hq; [apply T4; eauto|].
    apply (acc_lt (calls s) (refused s) g'). rewrite E. apply in_or_app. auto.
  - intros c l Hi. destruct (A c l Hi) as (g' & Hc & rest & E). exists g'. split.
    + rewrite Q; [exact Hc|]. eapply nth_lt; exact Hc.
    + rewrite acc_refused. eauto.
Qed.

Lemma inv_end s g e : Inv s -> (e = Aborted -> forall t, nth_error (tasks s) g = Some t -> t_controller t = false) -> Inv (end_task s g e).
Proof.
  intros I He. apply inv_upd; [exact I|]. intros t Et. split; [reflexivity|]. split; [reflexivity|].
  destruct (I_task s I g t Et) as ((rest & E & Er0) & T2 & T3 & T4). unfold task_ok. cbn. repeat split; auto.
  - exists (t_queue t ++ rest). split; [exact E|discriminate].
  - intros Hx. injection Hx as ->. apply (He eq_refl t Et).
Qed.

Lemma inv_step s e s' : Inv s -> step s e = Some s' -> Inv s'.
Proof.
  intros I H. pose proof I as [K R C F T A]. destruct e as [k|k|g|g|g m|g|g ok|g]; cbn [step] in H.
  - destruct (find_key k (registered s)) eqn:E; [discriminate|]. apply find_key_none in E. injection H as <-.
    split; cbn [tasks registered calls refused answers map fst]; auto.
    + constructor; assumption.
    + intros k' g [Hx|Hi].
      * injection Hx as <- <-. rewrite nth_snoc, Nat.ltb_irrefl, Nat.eqb_refl. eexists. split; [reflexivity|]. auto.
      * destruct (R k' g Hi) as (t & Et & Hk). exists t. split; [|exact Hk]. rewrite nth_error_app1; [exact Et|eapply nth_lt; exact Et].
    + intros c g m Hc. rewrite app_length. specialize (C c g m Hc). lia.
    + intros g t Ht. rewrite nth_snoc in Ht. destruct (g <? length (tasks s)) eqn:El; [apply T; exact Ht|].
      destruct (Nat.eqb_spec g (length (tasks s))) as [->|]; [|discriminate]. injection Ht as <-.
      repeat split; try discriminate; [|contradiction]. exists []. split; [|reflexivity]. cbn.
      unfold acc. rewrite (filter_ext_in _ (fun _ => false)); [clear; induction (seq 0 (length (calls s))); auto|].
      intros c Hc. apply andb_false_iff. right. destruct (nth_error (calls s) c) as [[g' m]|] eqn:Ec; [|reflexivity].
      apply Nat.eqb_neq. specialize (C c g' m Ec). lia.
  - destruct (find_key k (registered s)) as [g|] eqn:E; [|discriminate]. eapply inv_send; [|exact H].
    split; cbn [tasks registered calls refused answers]; auto.
    + clear -K. induction (registered s) as [|[k' g'] l IH]; [constructor|]. cbn in *. inversion K; subst.
      destruct (k' =? k); cbn; auto. constructor; auto. intros Hi. apply H1. apply in_map_iff in Hi. destruct Hi as (p & <- & Hi).
      apply filter_In in Hi. apply in_map. apply Hi.
    + intros k' g' Hi. apply filter_In in Hi. apply R. apply Hi.
  - destruct (existsb _ (registered s)) eqn:E; [discriminate|]. destruct (g <? length (tasks s)); [|discriminate]. injection H as <-.
    apply inv_upd; [exact I|]. intros t Et. split; [reflexivity|]. split.
    + intros Hi. exfalso. apply in_map_iff in Hi. destruct Hi as (p & <- & Hi).
      assert (existsb (fun q => snd q =? snd p) (registered s) = true) by (apply existsb_exists; exists p; split; [exact Hi|apply Nat.eqb_refl]). congruence.
    + destruct (T g t Et) as ((rest & E1 & Er0) & T2 & T3 & T4). unfold task_ok. cbn. repeat split; eauto.
  - destruct (g <? length (tasks s)); [|discriminate]. injection H as <-.
    apply inv_upd; [exact I|]. intros t Et. split; [reflexivity|]. split; [reflexivity|]. exact (T g t Et).
  - eapply inv_send; [exact I|exact H].
  - destruct (nth_error (tasks s) g) as [t|] eqn:Et; [|discriminate]. destruct (running t) eqn:Er; [|discriminate].
    destruct (t_queue t) as [|c rest] eqn:Eq; [discriminate|]. injection H as <-.
    destruct (T g t Et) as ((rest' & E & Er0) & T2 & T3 & T4). rewrite Eq, (Er0 Er), app_nil_r in E.
    assert (Gc : exists m, nth_error (calls s) c = Some (g, m)).
    { assert (Hi : In c (acc (calls s) (refused s) g)) by (rewrite E; apply in_or_app; right; left; reflexivity).
      unfold acc in Hi. apply filter_In in Hi. destruct Hi as [_ Hi]. apply andb_true_iff in Hi. destruct Hi as [_ Hi].
      destruct (nth_error (calls s) c) as [[g' m]|]; [|discriminate]. apply Nat.eqb_eq in Hi. subst. eauto. }
    destruct Gc as [m Gc]. set (ans := if is_query s c then answers s ++ [(c, t_handled t)] else answers s).
    assert (Hmono : forall p, In p (answers s) -> In p ans).
    { intros p Hp. unfold ans. destruct (is_query s c); [apply in_or_app; auto|exact Hp]. }
    assert (I' : Inv (State (tasks s) (registered s) (calls s) (refused s) ans)).
    { split; cbn [tasks registered calls refused answers]; auto.
      - intros g' t' Ht. destruct (T g' t' Ht) as (U1 & U2 & U3 & U4). repeat split; auto.
        intros c' Hc Hq. destruct (U4 c' Hc Hq) as [l Hl]. eauto.
      - intros c' l Hi. unfold ans in Hi. destruct (is_query s c) eqn:Eq'; [|apply A; exact Hi].
        apply in_app_or in Hi. destruct Hi as [Hi|[Hx|[]]]; [apply A; exact Hi|]. injection Hx as <- <-.
        exists g. split; [|eauto]. unfold is_query in Eq'. rewrite Gc in *. destruct m; try discriminate. reflexivity. }
    refine (inv_upd _ g (fun t => Task (t_key t) (t_end t) rest (t_handled t ++ [c]) (t_controller t) (t_receiver t)) I' _).
    cbn [tasks registered calls refused answers]. intros t' Ht. rewrite Et in Ht. injection Ht as <-. split; [reflexivity|]. split; [reflexivity|].
    unfold task_ok. cbn [t_handled t_queue t_end t_controller]. repeat split; auto.
    + exists []. split; [|reflexivity]. rewrite app_nil_r, <- app_assoc. exact E.
    + intros Hr. exfalso. unfold running in *. cbn in Hr. destruct (t_end t); discriminate.
    + intros c' Hc Hq. apply in_app_or in Hc. destruct Hc as [Hc|[<-|[]]].
      * destruct (T4 c' Hc Hq) as [l Hl]. eauto.
      * destruct Hq as [g' Hq]. exists (t_handled t). unfold ans, is_query. rewrite Hq. apply in_or_app. right. left. reflexivity.
  - destruct (nth_error (tasks s) g) as [t|] eqn:Et; [|discriminate].
    destruct (running t && _); [|discriminate]. destruct ok.
    + injection H as <-. destruct (t_receiver t); [exact I|]. apply inv_end; [exact I|discriminate].
    + injection H as <-. apply inv_end; [exact I|discriminate].
  - destruct (nth_error (tasks s) g) as [t|] eqn:Et; [|discriminate]. destruct (running t && negb (t_controller t)) eqn:E; [|discriminate].
    injection H as <-. apply inv_end; [exact I|]. intros _ t' Ht. rewrite Et in Ht. injection Ht as <-.
    apply andb_true_iff in E. destruct E as [_ E]. apply negb_true_iff in E. exact E.
Qed.
Lemma after_inv (J : state -> Prop) : (forall s e s', J s -> step s e = Some s' -> J s') -> forall es s, J s -> J (after s es).
Proof.
  intros H es. unfold after. induction es as [|e es IH]; intros s Hs; [exact Hs|]. cbn [fold_left]. apply IH.
  unfold after_event. destruct (step s e) eqn:E; [eapply H; eauto|exact Hs].
Qed.
Lemma inv s : reachable s -> Inv s.
Proof. intros [es ->]. apply after_inv; [exact inv_step|exact inv_init]. Qed.
Lemma after_app s a b : after s (a ++ b) = after (after s a) b.
Proof. unfold after. apply fold_left_app. Qed.
Lemma reachable_after s es : reachable s -> reachable (after s es).
Proof. intros [e0 ->]. exists (e0 ++ es). rewrite after_app. reflexivity. Qed.
Lemma reachable_step s e s' : reachable s -> step s e = Some s' -> reachable s'.
Proof. intros Hr H. replace s' with (after s [e]); [apply reachable_after; exact Hr|]. cbn. unfold after_event. rewrite H. reflexivity. Qed.
