(* The actor: what its records amount to. *)
From Verif Require Import Base MapLib WinModel AgModel AgProofs AaModel AaSpec AaProofs.
From Verif Require WinSpec AgSpec WinProofs WinRunProofs WinGroupProofs WinTopProofs.
From Coq Require Import ZArith Lia Permutation.
Import AgSpec(obs, o_ip, o_exp).

(* ---- judging through a map ---- *)
Section JudgeMap.
Context {I J K : Type} (f : I -> J) (keqb : K -> K -> bool) (kI : I -> K) (kJ : J -> K) (tI : I -> Z) (tJ : J -> Z) (late : Z).
Hypothesis Hk : forall x, kJ (f x) = kI x.
Hypothesis Ht : forall x, tJ (f x) = tI x.
Lemma is_late_map seen x : WinSpec.is_late keqb kJ tJ late (map f seen) (f x) = WinSpec.is_late keqb kI tI late seen x.
Proof. unfold WinSpec.is_late. induction seen as [|y seen IH]; cbn; [reflexivity|]. now rewrite IH, !Hk, !Ht. Qed.
Lemma judge_map xs : forall seen, WinSpec.judge keqb kJ tJ late (map f seen) (map f xs) = map (fun p => (f (fst p), snd p)) (WinSpec.judge keqb kI tI late seen xs).
Proof.
  induction xs as [|x xs IH]; intros seen; cbn; [reflexivity|]. rewrite is_late_map. f_equal. change [f x] with (map f [x]). rewrite <- map_app. apply IH.
Qed.
Lemma filter_pairs (p : bool -> bool) (l : list (I * bool)) :
  map fst (filter (fun q => p (snd q)) (map (fun q => (f (fst q), snd q)) l)) = map f (map fst (filter (fun q => p (snd q)) l)).
Proof. induction l as [|[x b] l IH]; cbn; [reflexivity|]. destruct (p b); cbn; now rewrite IH. Qed.
Lemma late_items_map xs : WinSpec.late_items keqb kJ tJ late (map f xs) = map f (WinSpec.late_items keqb kI tI late xs).
Proof. unfold WinSpec.late_items. pose proof (judge_map xs []) as Hj; cbn [map] in Hj; rewrite Hj. apply (filter_pairs (fun b => b)). Qed.
Lemma on_time_map xs : WinSpec.on_time keqb kJ tJ late (map f xs) = map f (WinSpec.on_time keqb kI tI late xs).
Proof. unfold WinSpec.on_time. pose proof (judge_map xs []) as Hj; cbn [map] in Hj; rewrite Hj. apply (filter_pairs negb). Qed.
Lemma group_map xs k s : WinSpec.group keqb kJ tJ late (map f xs) k s = map f (WinSpec.group keqb kI tI late xs k s).
Proof.
  unfold WinSpec.group. rewrite on_time_map. induction (WinSpec.on_time _ _ _ _ xs) as [|x l IH]; cbn; [reflexivity|]. rewrite Hk, Ht.
  destruct (_ && _); cbn; now rewrite IH.
Qed.
Lemma newest_map xs k t : WinSpec.newest kJ tJ (map f xs) k t <-> WinSpec.newest kI tI xs k t.
Proof.
  unfold WinSpec.newest. split; intros [(x & H1 & H2 & H3) H4].
  - apply in_map_iff in H1 as (y & <- & Hy). rewrite Hk in H2. rewrite Ht in H3. split; [eauto|]. intros z Hz Hzk. rewrite <- Ht. apply H4; [now apply in_map|now rewrite Hk].
  - split; [exists (f x); rewrite Hk, Ht; repeat split; auto; now apply in_map|]. intros z Hz Hzk. apply in_map_iff in Hz as (y & <- & Hy). rewrite Hk in Hzk. rewrite Ht. auto.
Qed.
Lemma over_map dur xs k s : WinSpec.over kJ tJ late dur (map f xs) k s <-> WinSpec.over kI tI late dur xs k s.
Proof. unfold WinSpec.over. split; intros (t & m & H & R); exists t, m; (split; [now apply newest_map|exact R]). Qed.
End JudgeMap.

Lemma group_incl {I K} (keqb : K -> K -> bool) (kI : I -> K) tI late xs k s x : In x (WinSpec.group keqb kI tI late xs k s) -> In x xs.
Proof.
  unfold WinSpec.group, WinSpec.on_time. intros H. apply filter_In in H as [H _]. apply in_map_iff in H as ([y b] & Hy & H). cbn in Hy. subst y. apply filter_In in H as [H _].
  revert H. generalize (@nil I) at 1. induction xs as [|z xs IH]; intros seen H; cbn in H; [destruct H|]. destruct H as [[= <- _]|H]; [now left|right; eauto].
Qed.
Lemma group_key {I} (kI : I -> N) tI late xs k s x : In x (WinSpec.group N.eqb kI tI late xs k s) -> kI x = k.
Proof. unfold WinSpec.group. intros H. apply filter_In in H as [_ H]. apply andb_prop in H as [H _]. apply andb_prop in H as [H _]. now apply N.eqb_eq. Qed.

(* ---- the actor ---- *)
Section Actor.
Context (bits : N -> N) (u : unified).
Local Notation keys := (u_keys u).
Local Notation sel := (u_sel u).
Local Notation dur := (Z.of_N (u_window u)).
Local Notation late := (Z.of_N (u_lateness u)).
Local Notation FEED := (feed N.eqb item_key item_time win_init (win_push bits u) (fun c : option cache => c) dur late).
Local Notation step := (step bits u).
Local Notation run := (run bits u).
Local Notation all s := (flat_map (explode keys sel) (s_inputs s)).
Local Notation FLUSH := (wflush (fun c : option cache => c) dur).

Definition due (w : window * option cache) : list (N * window * (ckey * crec)) :=
  match snd w with
  | Some ((k, r) :: c) => map (fun e => (k_ip k, fst w, e)) ((k, r) :: c)
  | _ => []
  end.
Definition now_seq (t : task) : list N := match t_now t with Some (n, _) => [n] | None => [] end.
Definition open_inv (s : actor) : Prop :=
  ~ In (Ready None) (s_answers s) /\ exists d, all s = d ++ s_queue s /\
    FEED d (wnew, [], []) = Some (s_win s, WinSpec.windows_of (s_answers s) ++ s_buf s, WinSpec.lates_of (s_answers s) ++ s_late s).
Definition flushed_inv (s : actor) : Prop :=
  s_closed s = true /\ s_queue s = [] /\ s_win s = wnew /\ (exists l y, s_answers s = l ++ [Ready y]) /\ (In (Ready None) (s_answers s) -> s_buf s = [] /\ s_late s = []) /\
  exists w1 e fl, FEED (all s) (wnew, [], []) = Some (w1, e, WinSpec.lates_of (s_answers s) ++ s_late s) /\ FLUSH w1 = Some (wnew, fl) /\
    e ++ fl = WinSpec.windows_of (s_answers s) ++ s_buf s.
Record inv (s : actor) : Prop := {
  i_stream : s_ending s = Panicked \/ open_inv s \/ flushed_inv s;
  i_panic : s_ending s = Panicked -> ~ In (Ready None) (s_answers s) /\ (exists l, s_answers s = l ++ [Crash] \/ exists w, s_answers s = l ++ [Ready (Some (inl (w, None)))]);
  i_pending : (exists l, s_answers s = l ++ [Pending]) -> s_buf s = [] /\ s_late s = [];
  i_tasks : Permutation (given_records s ++ held_records s) (flat_map due (WinSpec.windows_of (s_answers s)));
  i_seq : exists n, s_seq s = N.of_nat n mod 2 ^ 32 /\
    Permutation (map g_seq (s_out s) ++ flat_map now_seq (s_tasks s)) (map (fun i => N.of_nat i mod 2 ^ 32) (seq 0 n)) }.

Lemma windows_app a b : WinSpec.windows_of (I := ckey * crec) (V := option cache) (a ++ b) = WinSpec.windows_of a ++ WinSpec.windows_of b.
Proof. apply flat_map_app. Qed.
Lemma lates_app a b : WinSpec.lates_of (I := ckey * crec) (V := option cache) (a ++ b) = WinSpec.lates_of a ++ WinSpec.lates_of b.
Proof. apply flat_map_app. Qed.
Lemma inv_new : inv actor_new.
Proof.
  constructor; cbn.
  - right. left. split; [tauto|]. exists []. split; reflexivity.
  - discriminate.
  - intros (l & H). destruct l; discriminate.
  - constructor.
  - exists 0%nat. split; [reflexivity|constructor].
Qed.

Lemma nth_upd ts i t : nth_error ts i = Some t -> exists a b, ts = a ++ t :: b /\ forall t', upd ts i t' = a ++ t' :: b.
Proof.
  revert i. induction ts as [|x ts IH]; intros [|i] H; cbn in H; try discriminate.
  - injection H as ->. exists [], ts. split; reflexivity.
  - destruct (IH i H) as (a & b & -> & E). exists (x :: a), b. split; [reflexivity|]. intros t'. cbn. now rewrite E.
Qed.
Lemma last_inj {X} (l l' : list X) x y : l ++ [x] = l' ++ [y] -> x = y.
Proof. intros H. apply app_inj_tail in H as [_ H]. exact H. Qed.

Lemma inv_turn s : s_ending s = Running -> inv s -> inv (turn bits u s).
Proof.
  intros Hrun [I1 I2 I3 I4 I5]. unfold turn. rewrite Hrun. destruct (s_cmd s).
  { constructor; cbn; auto; [|discriminate]. destruct I1 as [C|I1]; [congruence|]. right. exact I1. }
  destruct I1 as [C|I1]; [congruence|].
  destruct (win_poll bits u _ s) as [a' o] eqn:Hp. unfold win_poll, poll in Hp. cbn [a_src a_w a_buf a_late] in Hp.
  set (tl := if s_closed s then [] else [None]) in *.
  assert (Htl : tl = [None] \/ tl = []) by (unfold tl; destruct (s_closed s); auto).
  assert (Hcl : tl = [] -> s_closed s = true) by (unfold tl; destruct (s_closed s); [reflexivity|discriminate]).
  pose proof (poll_feed N.eqb item_key item_time win_init (win_push bits u) (fun c => c) dur late tl (s_queue s) Htl _ _ _ _ _ Hp) as Hf.
  (* the flushed state answers from its buffer, then says that it is over *)
  assert (Hfl : flushed_inv s -> exists y, o = Ready y /\ a_src a' = [] /\ a_w a' = wnew /\ WinSpec.windows_of [o] ++ a_buf a' = s_buf s /\ WinSpec.lates_of [o] ++ a_late a' = s_late s /\
      (y = None -> a_buf a' = [] /\ a_late a' = []) /\ (In (Ready None) (s_answers s) -> y = None)).
  { intros (F1 & F2 & F3 & F4 & F5 & F6). unfold tl in Hp. rewrite F1, F2, F3 in Hp. cbn [map app poll_src] in Hp. unfold get_next in Hp. cbn [a_late a_buf a_src a_w] in Hp.
    destruct (s_late s) as [|x ls] eqn:El; [destruct (s_buf s) as [|v b] eqn:Eb|].
    - cbn in Hp. injection Hp as <- <-. exists None. cbn. repeat split; auto.
    - injection Hp as <- <-. exists (Some (inl v)). cbn. repeat split; auto; try discriminate. intros Hx. destruct (F5 Hx). congruence.
    - injection Hp as <- <-. exists (Some (inr x)). cbn. repeat split; auto; try discriminate. intros Hx. destruct (F5 Hx). congruence. }
  constructor; cbn [s_ending s_answers s_buf s_late s_queue s_closed s_win s_tasks s_seq s_inputs s_out].
  - (* the stream *)
    destruct I1 as [(Hn & d & E1 & E2)|F].
    + destruct o as [y| |].
      * destruct Hf as [(d' & q' & Eq & Hy & Es & Ef)|(-> & Esrc & Ew & El & Elo & Eb & w1 & fl & Ef & Efl & Efl2)].
        -- right. left. split; cbn [s_answers s_queue s_win s_buf s_late s_inputs].
           ++ intros Hx. apply in_app_or in Hx as [Hx|[Hx|[]]]; [exact (Hn Hx)|]. injection Hx as ->. congruence.
           ++ exists (d ++ d'). split; [rewrite E1, Eq, <- app_assoc; f_equal; f_equal; unfold somes in Es; unfold remaining; congruence|].
              rewrite feed_app, E2. rewrite windows_app, lates_app, <- !app_assoc. now apply feed_frame.
        -- right. right. split; cbn [s_answers s_queue s_win s_buf s_late s_inputs s_closed]; [auto|]. split; [unfold remaining; now rewrite Esrc|]. split; [exact Ew|].
           split; [eauto|]. split.
           ++ intros Hx. split; [|exact El]. apply in_app_or in Hx as [Hx|[Hx|[]]]; [destruct (Hn Hx)|]. injection Hx as ->. auto.
           ++ pose proof (feed_frame _ _ _ _ _ _ _ _ _ _ _ _ (WinSpec.windows_of (s_answers s)) (WinSpec.lates_of (s_answers s)) _ _ _ Ef) as Ef'. rewrite !app_nil_r in Ef'.
              exists w1, (WinSpec.windows_of (s_answers s)), fl. split; [|split; [exact Efl|]].
              ** rewrite E1, feed_app, E2, Ef', lates_app, Elo, El, !app_nil_r. reflexivity.
              ** rewrite Efl2, windows_app, <- app_assoc. reflexivity.
      * destruct Hf as (-> & Es & Eb & El & Ef). right. left. split; cbn [s_answers s_queue s_win s_buf s_late s_inputs].
        -- intros Hx. apply in_app_or in Hx as [Hx|[Hx|[]]]; [exact (Hn Hx)|discriminate Hx].
        -- exists (all s). split; [unfold remaining; unfold somes in Es; rewrite Es; now rewrite app_nil_r|]. rewrite E1, feed_app, E2.
           rewrite windows_app, lates_app, Eb, El. cbn [WinSpec.windows_of WinSpec.lates_of flat_map app]. rewrite <- !app_assoc. cbn [app].
           apply (feed_frame _ _ _ _ _ _ _ _ _ _ _ _ (WinSpec.windows_of (s_answers s)) (WinSpec.lates_of (s_answers s)) _ _ _ Ef).
      * left. reflexivity.
    + destruct (Hfl F) as (y & -> & Q1 & Q2 & Q3 & Q4 & Q5 & Q6). destruct F as (F1 & F2 & F3 & F4 & F5 & w1 & e & fl & F6 & F7 & F8).
      right. right. split; cbn [s_answers s_queue s_win s_buf s_late s_inputs s_closed]; [exact F1|]. split; [unfold remaining; now rewrite Q1|]. split; [exact Q2|].
      split; [eauto|]. split.
      * intros Hx. apply Q5. apply in_app_or in Hx as [Hx|[Hx|[]]]; [auto|]. now injection Hx.
      * exists w1, e, fl. rewrite windows_app, lates_app, <- !app_assoc, Q3, Q4. auto.
  - (* panics *)
    intros Hx. assert (Hno : ~ In (Ready None) (s_answers s)).
    { destruct I1 as [[Hn _]|F]; [exact Hn|]. intros Hr. destruct (Hfl F) as (y & -> & _ & _ & _ & _ & _ & Q6). rewrite (Q6 Hr) in Hx. discriminate. }
    destruct o as [[[[w [c|]]|x]|]| |]; try discriminate Hx; (split; [intros Hy; apply in_app_or in Hy as [Hy|[Hy|[]]]; [exact (Hno Hy)|discriminate Hy]|eauto]).
  - (* waiting *)
    intros (l & Hx). apply last_inj in Hx. subst o. destruct Hf as (_ & _ & Eb & El & _). auto.
  - (* tasks *)
    rewrite windows_app, flat_map_app. unfold given_records, held_records. cbn [s_out s_tasks].
    assert (Hsame : forall w, WinSpec.windows_of [o] = w -> flat_map due w = [] -> Permutation (map (fun g => (g_ip g, g_win g, g_entry g)) (s_out s) ++ flat_map task_records (s_tasks s))
       (flat_map due (WinSpec.windows_of (s_answers s)) ++ flat_map due (WinSpec.windows_of [o]))).
    { intros w -> ->. rewrite app_nil_r. exact I4. }
    destruct o as [[[[w [[|[k r] c]|]]|x]|]| |]; try (apply (Hsame _ eq_refl); reflexivity).
    rewrite flat_map_app, app_assoc. apply Permutation_app; [exact I4|]. cbn. apply Permutation_refl.
  - (* sequence numbers *)
    destruct I5 as (n & S1 & S2). exists n. split; [exact S1|].
    destruct o as [[[[w [[|[k r] c]|]]|x]|]| |]; try exact S2. rewrite flat_map_app. cbn. rewrite app_nil_r. exact S2.
Qed.

Lemma seq_next_mod n : seq_next (N.of_nat n mod 2 ^ 32) = N.of_nat (S n) mod 2 ^ 32.
Proof. unfold seq_next. rewrite Nnat.Nat2N.inj_succ, <- N.add_1_r. rewrite N.add_mod_idemp_l; [reflexivity|discriminate]. Qed.
Lemma inv_step s e s' : inv s -> step s e = Some s' -> inv s'.
Proof.
  intros I H. destruct e as [i| | | |i|i f]; cbn [AaModel.step] in H.
  - destruct (s_closed s) eqn:Ec; [discriminate|]. injection H as <-. destruct I as [I1 I2 I3 I4 I5]. constructor; cbn [s_ending s_answers s_buf s_late]; auto.
    destruct I1 as [I1|[(Hn & d & E1 & E2)|F]]; [left; exact I1| |destruct F; congruence].
    right. left. split; [exact Hn|]. exists d. cbn [s_inputs s_queue s_win s_answers s_buf s_late]. split; [|exact E2].
    rewrite flat_map_app, E1. cbn [flat_map]. now rewrite app_nil_r, <- app_assoc.
  - injection H as <-. destruct I as [I1 I2 I3 I4 I5]. constructor; cbn [s_ending s_answers s_buf s_late]; auto.
    destruct I1 as [I1|[I1|(F1 & F2)]]; auto. right. right. split; [reflexivity|exact F2].
  - injection H as <-. destruct I as [I1 I2 I3 I4 I5]. constructor; cbn [s_ending s_answers s_buf s_late]; auto.
  - destruct (s_ending s) eqn:Er; try discriminate. injection H as <-. now apply inv_turn.
  - destruct (nth_error (s_tasks s) i) as [[ip w [|e rest] [|]]|] eqn:En; try discriminate. injection H as <-.
    destruct (nth_upd _ _ _ En) as (a & b & Ea & Eu). destruct I as [I1 I2 I3 I4 I5]. constructor; cbn [s_ending s_answers s_buf s_late]; auto.
    + unfold held_records, given_records in *. cbn [s_tasks s_out]. rewrite Eu. rewrite Ea in I4. rewrite flat_map_app in *. cbn [flat_map task_records t_now t_rest t_ip t_win app map] in *. exact I4.
    + destruct I5 as (n & S1 & S2). exists (S n). cbn [s_seq s_out s_tasks]. split; [rewrite S1; apply seq_next_mod|].
      rewrite Eu. rewrite Ea in S2. rewrite flat_map_app in *. cbn [flat_map now_seq t_now app] in *.
      rewrite seq_S, map_app. cbn [map plus]. rewrite S1. rewrite app_assoc. etransitivity; [apply Permutation_sym, Permutation_middle|].
      etransitivity; [|apply Permutation_cons_append]. constructor. rewrite <- app_assoc. exact S2.
  - destruct (nth_error (s_tasks s) i) as [[ip w rest [[n e]|]]|] eqn:En; try discriminate. injection H as <-.
    destruct (nth_upd _ _ _ En) as (a & b & Ea & Eu). destruct I as [I1 I2 I3 I4 I5]. constructor; cbn [s_ending s_answers s_buf s_late]; auto.
    + unfold held_records, given_records in *. cbn [s_tasks s_out]. rewrite Eu. rewrite Ea in I4. rewrite map_app. rewrite flat_map_app in *.
      cbn [flat_map task_records t_now t_rest t_ip t_win app map g_ip g_win g_entry] in *. rewrite <- I4. rewrite <- app_assoc. apply Permutation_app_head. cbn [app].
      apply Permutation_middle.
    + destruct I5 as (m & S1 & S2). exists m. cbn [s_seq s_out s_tasks]. split; [exact S1|].
      rewrite Eu. rewrite Ea in S2. rewrite map_app. rewrite flat_map_app in *. cbn [flat_map now_seq t_now app map g_seq] in *. rewrite <- S2. rewrite <- app_assoc. apply Permutation_app_head. cbn [app].
      apply Permutation_middle.
Qed.
Lemma inv_run es : forall s s', inv s -> run s es = Some s' -> inv s'.
Proof.
  induction es as [|e es IH]; intros s s' I; cbn [AaModel.run]; [intros [= <-]; exact I|]. destruct (step s e) as [s1|] eqn:E; [|discriminate]. apply IH. eapply inv_step; eauto.
Qed.

(* ---- from items to flows ---- *)
Lemma fold_push l : forall c, fold_left (win_push bits u) l (Some c) = pushes bits sel c l.
Proof.
  induction l as [|x l IH]; intros c; cbn [fold_left pushes win_push]; [reflexivity|]. destruct (push bits sel c x) as [c'|]; [apply IH|].
  clear. induction l; cbn; auto.
Qed.
Lemma item_key_obs o : item_key (item keys sel o) = o_ip o. Proof. reflexivity. Qed.
Lemma item_time_obs o : item_time (item keys sel o) = time_of o. Proof. reflexivity. Qed.

Definition cache_of (obss : list obs) (i : N * Z) : cache :=
  match fold_left (win_push bits u) (map (item keys sel) (WinSpec.group N.eqb o_ip time_of late obss (fst i) (snd i))) win_init with Some c => c | None => [] end.
Lemma cache_good obss i : AgSpec.numeric bits sel obss ->
  fold_left (win_push bits u) (map (item keys sel) (WinSpec.group N.eqb o_ip time_of late obss (fst i) (snd i))) win_init = Some (cache_of obss i) /\
  good bits keys sel (WinSpec.group N.eqb o_ip time_of late obss (fst i) (snd i)) (cache_of obss i).
Proof.
  intros Hn. unfold cache_of, win_init. rewrite fold_push.
  destruct (pushes_good bits keys sel (WinSpec.group N.eqb o_ip time_of late obss (fst i) (snd i))) with (done := @nil obs) (c := @nil (ckey * crec)) as (c & -> & G).
  - apply Forall_forall. intros o Ho r op f Hr Hf. apply (Hn o r op f); auto. eapply group_incl; exact Ho.
  - split; [constructor|]. intros k. reflexivity.
  - split; [reflexivity|exact G].
Qed.
Lemma good_in g c k r : good bits keys sel g c -> In (k, r) c -> AgSpec.group keys k g <> [] /\ AgSpec.describes bits sel (AgSpec.group keys k g) r.
Proof. intros [Hnd G] H. apply (In_mget _ ckey_eqb_spec) in H; [|exact Hnd]. specialize (G k). now rewrite H in G. Qed.
Lemma good_key g c k r ip : good bits keys sel g c -> In (k, r) c -> (forall o, In o g -> o_ip o = ip) -> k_ip k = ip.
Proof.
  intros G H Ho. apply (good_in _ _ _ _ G) in H as [H _]. destruct (AgSpec.group keys k g) as [|o l] eqn:E; [congruence|].
  assert (Hi : In o (AgSpec.group keys k g)) by (rewrite E; now left). apply group_in in Hi as [Hi Hk]. rewrite <- Hk. cbn. auto.
Qed.
Lemma due_cache obss i : AgSpec.numeric bits sel obss ->
  due ((snd i, (snd i + dur)%Z), fold_left (win_push bits u) (map (item keys sel) (WinSpec.group N.eqb o_ip time_of late obss (fst i) (snd i))) win_init)
  = map (fun e => (fst i, (snd i, (snd i + dur)%Z), e)) (cache_of obss i).
Proof.
  intros Hn. destruct (cache_good obss i Hn) as [-> G]. unfold due. cbn [snd fst]. destruct (cache_of obss i) as [|[k r] c] eqn:E; [reflexivity|].
  rewrite (good_key _ _ k r (fst i) G); [reflexivity|now left|]. intros o Ho. eapply group_key. exact Ho.
Qed.

Lemma NoDup_flat {X Y Z1} (ids : list X) (C : X -> list Y) (h : X -> Y -> Z1) : NoDup ids -> (forall i, In i ids -> NoDup (map (h i) (C i))) ->
  (forall i j x y, h i x = h j y -> i = j) -> NoDup (flat_map (fun i => map (h i) (C i)) ids).
Proof.
  intros Hn Hc Hi. induction Hn as [|i ids Hx Hn IH]; cbn; [constructor|].
  assert (IH' : NoDup (flat_map (fun i => map (h i) (C i)) ids)) by (apply IH; intros j Hj; apply Hc; now right).
  assert (Hh : NoDup (map (h i) (C i))) by (apply Hc; now left).
  assert (Hd : forall z, In z (map (h i) (C i)) -> ~ In z (flat_map (fun i => map (h i) (C i)) ids)).
  { intros z Hz Hz'. apply in_map_iff in Hz as (x & <- & _). apply in_flat_map in Hz' as (j & Hj & Hz'). apply in_map_iff in Hz' as (y & Hy & _). apply Hi in Hy. congruence. }
  revert Hh Hd. generalize (map (h i) (C i)). intros l Hh Hd. induction Hh as [|z l Hz Hl IHl]; cbn; [exact IH'|].
  constructor; [|apply IHl; intros y Hy; apply Hd; now right]. intros Hc1. apply in_app_or in Hc1 as [Hc1|Hc1]; [exact (Hz Hc1)|]. apply (Hd z); [now left|exact Hc1].
Qed.
Lemma accounts_from obss chosen outs ids : AgSpec.numeric bits sel obss -> NoDup ids ->
  (forall ip b, In (ip, b) ids <-> WinSpec.minute_start b /\ WinSpec.group N.eqb o_ip time_of late obss ip b <> [] /\ chosen ip b) ->
  Permutation outs (flat_map (fun i => map (fun e => (fst i, (snd i, (snd i + dur)%Z), e)) (cache_of obss i)) ids) ->
  accounts bits keys sel dur late obss chosen outs.
Proof.
  intros Hn Hnd Hids Hp. constructor.
  - eapply Permutation_NoDup; [apply Permutation_map, Permutation_sym, Hp|].
    assert (E : map (fun x : N * window * (ckey * crec) => (fst x, fst (snd x))) (flat_map (fun i => map (fun e => (fst i, (snd i, (snd i + dur)%Z), e)) (cache_of obss i)) ids)
      = flat_map (fun i => map (fun k => (fst i, (snd i, (snd i + dur)%Z), k)) (map fst (cache_of obss i))) ids).
    { clear. rewrite !flat_map_concat_map, concat_map, map_map. f_equal. apply map_ext. intros i. rewrite !map_map. reflexivity. }
    rewrite E. apply (NoDup_flat ids (fun i => map fst (cache_of obss i)) (fun i k => (fst i, (snd i, (snd i + dur)%Z), k))); [exact Hnd| |].
    + intros i _. destruct (cache_good obss i Hn) as [_ [G _]]. unfold mkeys in G. revert G. generalize (map fst (cache_of obss i)). intros l. clear. induction 1 as [|x l Hx Hl IH]; cbn; constructor; auto.
      intros Hc. apply in_map_iff in Hc as (y & Hy & Hc). injection Hy as ->. auto.
    + intros [a1 a2] [b1 b2] x y Hxy. cbn in Hxy. injection Hxy as -> -> _ _. reflexivity.
  - intros ip b e k r Hin. apply (Permutation_in _ Hp) in Hin. apply in_flat_map in Hin as ([ip' b'] & Hi & Hin). apply in_map_iff in Hin as (en & He & Hin). cbn [fst snd] in He.
    injection He as -> -> <- ->. apply Hids in Hi as (H1 & H2 & H3). destruct (cache_good obss (ip, b) Hn) as [_ G]. apply (good_in _ _ _ _ G) in Hin as [G1 G2]. auto.
  - intros ip b k Hm Hc Hmem. destruct (cache_good obss (ip, b) Hn) as [_ G]. cbn [fst snd] in G. pose proof (proj2 G k) as Hk.
    destruct (mget ckey_eqb k (cache_of obss (ip, b))) as [r|] eqn:Er; [|unfold members in Hmem; congruence].
    exists r. apply (Permutation_in _ (Permutation_sym Hp)). apply in_flat_map. exists (ip, b). split.
    + apply Hids. split; [exact Hm|]. split; [|exact Hc]. unfold members in Hmem. intros E. rewrite E in Hmem. apply Hmem. reflexivity.
    + apply in_map_iff. exists (k, r). split; [reflexivity|]. now apply (mget_In _ ckey_eqb_spec).
Qed.

Lemma map_nil {X Y} (f : X -> Y) l : map f l <> [] <-> l <> [].
Proof. destruct l; cbn; split; congruence. Qed.
Hypothesis Hd : (0 < u_window u)%N.
Lemma flat_due obss ids : AgSpec.numeric bits sel obss ->
  flat_map due (map (fun i => ((snd i, (snd i + dur)%Z), fold_left (win_push bits u) (WinSpec.group N.eqb item_key item_time late (map (item keys sel) obss) (fst i) (snd i)) win_init)) ids)
  = flat_map (fun i => map (fun e => (fst i, (snd i, (snd i + dur)%Z), e)) (cache_of obss i)) ids.
Proof.
  intros Hn. induction ids as [|i ids IH]; cbn [map flat_map]; [reflexivity|]. rewrite IH. f_equal.
  rewrite (group_map (item keys sel) N.eqb o_ip item_key time_of item_time late item_key_obs item_time_obs). now apply due_cache.
Qed.
Lemma at_the_end s : inv s -> stream_over s -> AgSpec.numeric bits sel (AgSpec.observations (s_inputs s)) ->
  discarded s = WinSpec.late_items N.eqb item_key item_time late (all s) /\
  accounts bits keys sel dur late (AgSpec.observations (s_inputs s)) (fun _ _ => True) (given_records s ++ held_records s).
Proof.
  intros [I1 I2 _ I4 _] Hov Hn. destruct I1 as [C|[[Hno _]|F]]; [destruct (I2 C) as [Hx _]; destruct (Hx Hov)|destruct (Hno Hov)|].
  destruct F as (F1 & F2 & F3 & F4 & F5 & w1 & e & fl & F6 & F7 & F8). destruct (F5 Hov) as [Eb El]. rewrite Eb, app_nil_r in F8. rewrite El, app_nil_r in F6.
  destruct (feed_all N.eqb item_key item_time N.eqb_spec win_init (win_push bits u) (fun c => c) dur late ltac:(lia) ltac:(lia) _ _ _ _ _ F6 F7) as (L & ids & G1 & G2 & G3).
  split; [exact L|]. rewrite explode_items in *.
  apply (accounts_from _ _ _ ids Hn G2).
  - intros ip b. rewrite G3, (group_map (item keys sel) N.eqb o_ip item_key time_of item_time late item_key_obs item_time_obs), map_nil. tauto.
  - rewrite I4, <- F8, G1. rewrite flat_due by exact Hn. apply Permutation_refl.
Qed.
Lemma when_waiting s : inv s -> waiting s -> AgSpec.numeric bits sel (AgSpec.observations (s_inputs s)) ->
  discarded s = WinSpec.late_items N.eqb item_key item_time late (all s) /\
  accounts bits keys sel dur late (AgSpec.observations (s_inputs s))
    (WinSpec.over o_ip time_of late dur (AgSpec.observations (s_inputs s))) (given_records s ++ held_records s).
Proof.
  intros [I1 I2 I3 I4 _] [Hq Hp] Hn. destruct (I3 Hp) as [Eb El]. destruct Hp as (l0 & Hp). destruct I1 as [C|[(_ & d & E1 & E2)|F]].
  - destruct (I2 C) as (_ & l & [Hx|(w & Hx)]); rewrite Hp in Hx; apply last_inj in Hx; discriminate Hx.
  - rewrite Hq, app_nil_r in E1. subst d. rewrite Eb, El, !app_nil_r in E2.
    destruct (feed_now N.eqb item_key item_time N.eqb_spec win_init (win_push bits u) (fun c => c) dur late ltac:(lia) ltac:(lia) _ _ _ _ E2) as (L & ids & G1 & G2 & G3).
    split; [exact L|]. rewrite explode_items in *. apply (accounts_from _ _ _ ids Hn G2).
    + intros ip b. rewrite G3, (group_map (item keys sel) N.eqb o_ip item_key time_of item_time late item_key_obs item_time_obs), map_nil.
      rewrite (over_map (item keys sel) o_ip item_key time_of item_time late item_key_obs item_time_obs). tauto.
    + rewrite I4, G1. rewrite flat_due by exact Hn. apply Permutation_refl.
  - destruct F as (_ & _ & _ & (l & y & Hx) & _). rewrite Hp in Hx. apply last_inj in Hx. discriminate Hx.
Qed.

(* ---- no panic ---- *)
Lemma feed_roomy xs : forall w e l, WinTopProofs.safe_state N.eqb (A := option cache) dur late w -> Forall (fun x => WinTopProofs.roomy dur late (item_time x)) xs ->
  exists w' e' l', FEED xs (w, e, l) = Some (w', e', l') /\ WinTopProofs.safe_state N.eqb dur late w'.
Proof.
  induction xs as [|x xs IH]; intros w e l Hs Hx; cbn [feed]; [eauto 6|]. inversion Hx as [|? ? H1 H2]; subst.
  destruct (WinTopProofs.process_roomy N.eqb item_key item_time N.eqb_spec win_init (win_push bits u) (fun c : option cache => c) dur late w x ltac:(lia) ltac:(lia) Hs H1) as (w' & o & l1 & -> & Hs').
  apply IH; assumption.
Qed.
Lemma safe_new : WinTopProofs.safe_state N.eqb (A := option cache) dur late wnew.
Proof. split; [intros ? ? H; discriminate|intros ? ? []]. Qed.
Lemma flush_roomy w : WinTopProofs.safe_state N.eqb dur late w -> FLUSH w <> None.
Proof.
  intros [_ Hs]. unfold wflush. destruct (wresults _ dur _) as [out|] eqn:Ho; [discriminate|]. exfalso. revert Ho. apply (WinTopProofs.wresults_some (I := N) (None : option cache) (fun c _ => c)); [apply N2Z.is_nonneg|].
  apply Forall_forall. intros e He. apply in_flat_map in He as ([k m] & Hm & He). specialize (Hs k m Hm). rewrite Forall_forall in Hs. auto.
Qed.
Lemma pushes_some g : pushes bits sel [] (map (item keys sel) g) <> None.
Proof. apply pushes_total; [|constructor]. apply Forall_forall. intros x Hx. apply in_map_iff in Hx as (o & <- & _). cbn. apply map_length. Qed.
Lemma results_some obss (ids : list (N * Z)) w : In (w, None)
   (map (fun i => ((snd i, (snd i + dur)%Z), fold_left (win_push bits u) (WinSpec.group N.eqb item_key item_time late (map (item keys sel) obss) (fst i) (snd i)) win_init)) ids) -> False.
Proof.
  intros H. apply in_map_iff in H as (i & H & _). injection H as _ H. rewrite (group_map (item keys sel) N.eqb o_ip item_key time_of item_time late item_key_obs item_time_obs) in H.
  unfold win_init in H. rewrite fold_push in H. exact (pushes_some _ H).
Qed.
Lemma no_panic s : inv s -> Forall (fun x => WinTopProofs.roomy dur late (item_time x)) (all s) -> s_ending s = Running -> s_ending (turn bits u s) <> Panicked.
Proof.
  intros [I1 _ _ _ _] Hr Hrun. unfold turn. rewrite Hrun. destruct (s_cmd s); [cbn; discriminate|]. destruct I1 as [C|I1]; [congruence|].
  destruct (win_poll bits u _ s) as [a' o] eqn:Hp. unfold win_poll, poll in Hp. cbn [a_src a_w a_buf a_late] in Hp. cbn [s_ending].
  set (tl := if s_closed s then [] else [None]) in *.
  assert (Htl : tl = [None] \/ tl = []) by (unfold tl; destruct (s_closed s); auto).
  pose proof (poll_feed N.eqb item_key item_time win_init (win_push bits u) (fun c => c) dur late tl (s_queue s) Htl _ _ _ _ _ Hp) as Hf.
  pose proof (poll_crash N.eqb item_key item_time win_init (win_push bits u) (fun c => c) dur late tl (s_queue s) Htl (s_win s) (s_buf s) (s_late s) a') as Hcr.
  assert (Hnone : forall w b l d e1 l1, FEED d (wnew, [], []) = Some (w, b ++ e1, l) -> (exists t, all s = d ++ t) -> In (l1, None) e1 -> False).
  { intros w b l d e1 l1 Hfd (t & Ht) Hin.
    destruct (feed_now N.eqb item_key item_time N.eqb_spec win_init (win_push bits u) (fun c => c) dur late ltac:(lia) ltac:(lia) _ _ _ _ Hfd) as (_ & ids & G1 & _).
    rewrite explode_items in Ht. symmetry in Ht. symmetry in Ht. apply map_eq_app in Ht as (o1 & o2 & _ & Ho1 & _). subst d.
    apply (results_some o1 ids l1). rewrite <- G1. apply in_or_app. now right. }
  destruct I1 as [(Hn & d & E1 & E2)|F].
  - assert (Hsd : WinTopProofs.safe_state N.eqb dur late (s_win s)).
    { destruct (feed_roomy d wnew [] [] safe_new) as (w' & e' & l' & E & S). { rewrite E1 in Hr. apply Forall_app in Hr. tauto. } rewrite E2 in E. injection E as -> _ _. exact S. }
    assert (Hrq : Forall (fun x => WinTopProofs.roomy dur late (item_time x)) (s_queue s)) by (rewrite E1 in Hr; apply Forall_app in Hr; tauto).
    destruct o as [[[[w [c|]]|x]|]| |]; try discriminate.
    + (* a window without a cache *)
      destruct Hf as [(d' & q' & Eq & Hy & Es & Ef)|(-> & Esrc & Ew & El & Elo & Eb & w1 & fl & Ef & Efl & Efl2)].
      * exfalso. apply (feed_frame _ _ _ _ _ _ _ _ _ _ _ _ (WinSpec.windows_of (s_answers s)) (WinSpec.lates_of (s_answers s))) in Ef.
        eapply (Hnone _ _ _ (d ++ d') _ w); [rewrite feed_app, E2; exact Ef|exists q'; now rewrite E1, Eq, app_assoc|]. cbn. now left.
      * exfalso. apply (feed_frame _ _ _ _ _ _ _ _ _ _ _ _ (WinSpec.windows_of (s_answers s)) (WinSpec.lates_of (s_answers s))) in Ef.
        assert (Ea : FEED (all s) (wnew, [], []) = Some (w1, WinSpec.windows_of (s_answers s) ++ [], WinSpec.lates_of (s_answers s) ++ [])) by (rewrite E1, feed_app, E2; exact Ef).
        destruct (feed_all N.eqb item_key item_time N.eqb_spec win_init (win_push bits u) (fun c => c) dur late ltac:(lia) ltac:(lia) _ _ _ _ _ Ea Efl) as (_ & ids & G1 & _).
        rewrite explode_items in G1. apply (results_some (AgSpec.observations (s_inputs s)) ids w). rewrite <- G1. apply in_or_app. right. rewrite Efl2. cbn. now left.
    + exfalso. destruct (Hcr Hp) as [(d' & x & q' & w' & e & l' & Eq & Ef & Ep)|(_ & w' & e & l' & Ef & Ep)].
      * rewrite Eq in Hrq. apply Forall_app in Hrq as [R1 R2]. inversion R2 as [|? ? R3 R4]; subst.
        destruct (feed_roomy d' (s_win s) (s_buf s) (s_late s) Hsd R1) as (w2 & e2 & l2 & E & S). rewrite Ef in E. injection E as <- _ _.
        destruct (WinTopProofs.process_roomy N.eqb item_key item_time N.eqb_spec win_init (win_push bits u) (fun c : option cache => c) dur late w' x ltac:(lia) ltac:(lia) S R3) as (? & ? & ? & E' & _). congruence.
      * destruct (feed_roomy (s_queue s) (s_win s) (s_buf s) (s_late s) Hsd Hrq) as (w2 & e2 & l2 & E & S). rewrite Ef in E. injection E as <- _ _. exact (flush_roomy _ S Ep).
  - destruct F as (F1 & F2 & F3 & F4 & F5 & w1 & e & fl & F6 & F7 & F8). unfold tl in Hp. rewrite F1, F2, F3 in Hp. cbn [map app poll_src] in Hp. unfold get_next in Hp. cbn [a_late a_buf a_src a_w] in Hp.
    destruct (s_late s) as [|x ls] eqn:El; [destruct (s_buf s) as [|[w c] b] eqn:Eb|].
    + cbn in Hp. injection Hp as <- <-. discriminate.
    + injection Hp as <- <-. destruct c as [c|]; [discriminate|]. exfalso.
      destruct (feed_all N.eqb item_key item_time N.eqb_spec win_init (win_push bits u) (fun c => c) dur late ltac:(lia) ltac:(lia) _ _ _ _ _ F6 F7) as (_ & ids & G1 & _).
      rewrite explode_items in G1. apply (results_some (AgSpec.observations (s_inputs s)) ids w). rewrite <- G1, F8. apply in_or_app. right. now left.
    + injection Hp as <- <-. discriminate.
Qed.
(* packets only ever add inputs *)
Lemma step_inputs s e s' : step s e = Some s' -> exists more, s_inputs s' = s_inputs s ++ more.
Proof.
  destruct e as [i| | | |i|i f]; cbn [AaModel.step].
  - destruct (s_closed s); [discriminate|]. intros [= <-]. cbn. eauto.
  - intros [= <-]. exists []. cbn. now rewrite app_nil_r.
  - intros [= <-]. exists []. cbn. now rewrite app_nil_r.
  - destruct (s_ending s) eqn:E; try discriminate. intros [= <-]. exists []. rewrite app_nil_r. unfold turn. rewrite E. destruct (s_cmd s); [reflexivity|]. destruct (win_poll _ _ _ s). reflexivity.
  - destruct (nth_error _ _) as [[? ? [|? ?] [|]]|]; try discriminate. intros [= <-]. exists []. cbn. now rewrite app_nil_r.
  - destruct (nth_error _ _) as [[? ? ? [[? ?]|]]|]; try discriminate. intros [= <-]. exists []. cbn. now rewrite app_nil_r.
Qed.
Lemma run_inputs es : forall s s', run s es = Some s' -> exists more, s_inputs s' = s_inputs s ++ more.
Proof.
  induction es as [|e es IH]; intros s s'; cbn [AaModel.run]; [intros [= <-]; exists []; now rewrite app_nil_r|]. destruct (step s e) as [s1|] eqn:E; [|discriminate].
  intros H. destruct (IH _ _ H) as (m2 & ->). destruct (step_inputs _ _ _ E) as (m1 & ->). exists (m1 ++ m2). now rewrite app_assoc.
Qed.
Lemma run_no_panic es : forall s s', inv s -> s_ending s <> Panicked -> run s es = Some s' ->
  Forall (fun x => WinTopProofs.roomy dur late (item_time x)) (all s') -> s_ending s' <> Panicked.
Proof.
  induction es as [|e es IH]; intros s s' I Hp; cbn [AaModel.run]; [intros [= <-]; auto|]. destruct (step s e) as [s1|] eqn:E; [|discriminate]. intros H Hr.
  apply (IH s1 s'); auto; [eapply inv_step; eauto|].
  assert (Hr1 : Forall (fun x => WinTopProofs.roomy dur late (item_time x)) (all s)).
  { destruct (run_inputs _ _ _ H) as (m2 & E2). destruct (step_inputs _ _ _ E) as (m1 & E1). rewrite E2, E1, <- app_assoc, flat_map_app in Hr. apply Forall_app in Hr. tauto. }
  destruct e as [i| | | |i|i f]; cbn [AaModel.step] in E.
  - destruct (s_closed s); [discriminate|]. injection E as <-. exact Hp.
  - injection E as <-. exact Hp.
  - injection E as <-. exact Hp.
  - destruct (s_ending s) eqn:Er; try discriminate. injection E as <-. now apply no_panic.
  - destruct (nth_error _ _) as [[? ? [|? ?] [|]]|]; try discriminate. injection E as <-. exact Hp.
  - destruct (nth_error _ _) as [[? ? ? [[? ?]|]]|]; try discriminate. injection E as <-. exact Hp.
Qed.
End Actor.
