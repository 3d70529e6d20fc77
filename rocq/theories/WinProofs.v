(* Proofs about WinModel. *)
From Verif Require Import Base MapLib WinModel WinSpec.
From Coq Require Import ZArith Lia Permutation Sorted ZifyBool.
Local Open Scope Z_scope.

Lemma minute_pos : 0 < minute. Proof. reflexivity. Qed.
Lemma ws_le t : window_start t <= t.
Proof. unfold window_start. pose proof (Z.mul_div_le t minute minute_pos). lia. Qed.
Lemma ws_lt t : t < window_start t + minute.
Proof. unfold window_start. pose proof (Z.mul_succ_div_gt t minute minute_pos). lia. Qed.
Lemma ws_mono a b : a <= b -> window_start a <= window_start b.
Proof. intros H. unfold window_start. pose proof (Z.div_le_mono a b minute minute_pos H). pose proof minute_pos. nia. Qed.
Lemma ws_iff t s : minute_start s -> (s <= t < s + minute <-> window_start t = s).
Proof.
  intros [n ->]. pose proof minute_pos. split; intros Hx.
  - unfold window_start. f_equal. symmetry. apply (Z.div_unique_pos t minute n (t - n * minute)); lia.
  - pose proof (ws_le t). pose proof (ws_lt t). lia.
Qed.
Lemma ws_minute t : minute_start (window_start t).
Proof. eexists. reflexivity. Qed.

Section P.
Context {K I : Type} (keqb : K -> K -> bool) (key_of : I -> K) (ts_of : I -> Z).
Hypothesis keqb_spec : forall a b, reflect (a = b) (keqb a b).
Context (dur late : Z).

(* ---- the collecting aggregator simulates every other ---- *)
Section Sim.
Context {A V : Type} (init : A) (push : A -> I -> A) (finish : A -> V).
Definition agg_of (l : list I) : A := fold_left push l init.
Definition lift_m (m : list (Z * list I)) : list (Z * A) := map (fun w => (fst w, agg_of (snd w))) m.
Definition lift_w (st : wstate (K := K) (A := list I)) : wstate (K := K) (A := A) := mkW (map (fun e => (fst e, lift_m (snd e))) (w_active st)) (w_now st).
Definition lift_o (l : list (window * list I)) : list (window * V) := map (fun w => (fst w, finish (agg_of (snd w)))) l.
Definition snoc (l : list I) (x : I) : list I := l ++ [x].
Local Notation process' := (process_item keqb key_of ts_of [] snoc (fun l => l) dur late).

Lemma agg_snoc l x : agg_of (snoc l x) = push (agg_of l) x.
Proof. unfold agg_of, snoc. now rewrite fold_left_app. Qed.
Lemma wpush_lift s x m : wpush init push s x (lift_m m) = lift_m (wpush [] snoc s x m).
Proof.
  induction m as [|[s' l] m IH]; cbn; [reflexivity|].
  destruct (s =? s'); [cbn [lift_m map fst snd]; now rewrite agg_snoc|]. destruct (s <? s'); [reflexivity|]. unfold lift_m in *. cbn [map fst snd]. now rewrite IH.
Qed.
Lemma filter_lift (p : Z -> bool) m : filter (fun w => p (fst w)) (lift_m m) = lift_m (filter (fun w => p (fst w)) m).
Proof. unfold lift_m. induction m as [|[s' l] m IH]; cbn; [reflexivity|]. destruct (p s'); cbn; now rewrite IH. Qed.
Lemma wresults_lift m : wresults finish dur (lift_m m) = option_map lift_o (wresults (fun l => l) dur m).
Proof.
  unfold lift_m. induction m as [|[s' l] m IH]; cbn; [reflexivity|]. rewrite IH.
  destruct (time_add s' dur); [|reflexivity]. destruct (wresults _ dur m); reflexivity.
Qed.
Lemma mget_lift k (m : list (K * list (Z * list I))) :
  mget keqb k (map (fun e => (fst e, lift_m (snd e))) m) = option_map lift_m (mget keqb k m).
Proof. induction m as [|[k' v] m IH]; cbn; [reflexivity|]. destruct (keqb k k'); auto. Qed.
Lemma mset_lift k v (m : list (K * list (Z * list I))) :
  mset keqb k (lift_m v) (map (fun e => (fst e, lift_m (snd e))) m) = map (fun e => (fst e, lift_m (snd e))) (mset keqb k v m).
Proof. induction m as [|[k' v'] m IH]; cbn; [reflexivity|]. destruct (keqb k k'); cbn; [reflexivity|now rewrite IH]. Qed.

Lemma process_lift st x :
  process_item keqb key_of ts_of init push finish dur late (lift_w st) x
  = option_map (fun r => match r with (st', o, l) => (lift_w st', lift_o o, l) end) (process' st x).
Proof.
  unfold process_item, lift_w. cbn [w_active w_now].
  destruct (time_sub _ late) as [b|]; [|reflexivity]. destruct (_ <? _); [reflexivity|].
  rewrite mget_lift.
  replace (match option_map lift_m (mget keqb (key_of x) (w_active st)) with Some m => m | None => [] end)
    with (lift_m (match mget keqb (key_of x) (w_active st) with Some m => m | None => [] end))
    by (destruct (mget _ _ (w_active st)); reflexivity).
  rewrite wpush_lift. destruct (time_sub (Z.max _ _) late) as [b'|]; [|reflexivity].
  destruct (time_sub (window_start b') dur) as [cut|]; [|reflexivity].
  rewrite (filter_lift (fun s => s <=? cut)), (filter_lift (fun s => negb (s <=? cut))), wresults_lift.
  destruct (wresults (fun l => l) dur _) as [out|]; [|reflexivity]. cbn [option_map w_active w_now].
  rewrite mset_lift. reflexivity.
Qed.
Lemma flush_lift st :
  wflush finish dur (lift_w st) = option_map (fun r => (lift_w (fst r), lift_o (snd r))) (wflush (K := K) (fun l => l) dur st).
Proof.
  unfold wflush, lift_w. cbn [w_active].
  replace (flat_map snd (map (fun e : K * list (Z * list I) => (fst e, lift_m (snd e))) (w_active st)))
    with (lift_m (flat_map snd (w_active st))).
  - rewrite wresults_lift. destruct (wresults (fun l => l) dur _); reflexivity.
  - induction (w_active st) as [|[k m] l IH]; cbn; [reflexivity|]. unfold lift_m in *. now rewrite map_app, IH.
Qed.
End Sim.

(* ---- what is still to come out of an adaptor ---- *)
Section Adaptor.
Context {A V : Type} (init : A) (push : A -> I -> A) (finish : A -> V).
Local Notation process := (process_item keqb key_of ts_of init push finish dur late).
Local Notation poll := (poll keqb key_of ts_of init push finish dur late).
Local Notation poll_src := (poll_src keqb key_of ts_of init push finish dur late).
Local Notation polls := (polls keqb key_of ts_of init push finish dur late).

Fixpoint to_come (xs : list I) (w : wstate (K := K) (A := A)) : option (list ((window * V) + I)) :=
  match xs with
  | [] => option_map (fun r => map inl (snd r)) (wflush finish dur w)
  | x :: r =>
      match process w x with
      | None => None
      | Some (w', o, l) => option_map (app (map inr l ++ map inl o)) (to_come r w')
      end
  end.
Definition future (a : adaptor (K := K) (I := I) (A := A) (V := V)) : option (list ((window * V) + I)) :=
  option_map (app (map inr (a_late a) ++ map inl (a_buf a))) (to_come (items (a_src a)) (a_w a)).

Lemma option_map_id {X} (o : option X) f : (forall x, f x = x) -> option_map f o = o.
Proof. intros H. destruct o; cbn; [now rewrite H|reflexivity]. Qed.
Lemma option_map_cons {X} (y : X) l o : option_map (app (y :: l)) o = option_map (cons y) (option_map (app l) o).
Proof. destruct o; reflexivity. Qed.

Lemma poll_src_step src : forall w buf lates a' o, poll_src src w buf lates = (a', o) ->
  match o with
  | Ready (Some y) => future (mkA src w buf lates) = option_map (cons y) (future a') /\
      (length (a_src a') < length src \/ (length (a_src a') = length src /\ (src <> [] \/ (length buf + length lates <> 0)) /\
          length (a_buf a') + length (a_late a') < length buf + length lates)
       \/ src = [] /\ length buf + length lates = 0 /\ future a' <> None /\ a_src a' = [])%nat
  | Pending => future (mkA src w buf lates) = future a' /\ (length (a_src a') < length src)%nat
  | Ready None => future (mkA src w buf lates) = Some [] /\ future a' = Some [] /\ poll a' = (a', Ready None)
  | Crash => future (mkA src w buf lates) = None
  end.
Proof.
  induction src as [|e src IH]; intros w buf lates a' o H; cbn [WinModel.poll_src] in H.
  - destruct lates as [|x lates]; cbn [get_next a_late a_buf a_src a_w] in H.
    + destruct buf as [|v buf].
      * destruct (wflush finish dur w) as [[w' out]|] eqn:Hf.
        -- cbn [app] in H. destruct out as [|v out]; injection H as <- <-.
           ++ assert (Hz : forall ws, wflush finish dur w = Some (ws, []) -> wflush (K := K) finish dur ws = Some (wnew, [])).
              { intros ws Hw. unfold wflush in Hw. destruct (wresults _ _ _); inversion Hw; subst. reflexivity. }
              assert (Hn : w' = wnew) by (unfold wflush in Hf; destruct (wresults _ _ _); inversion Hf; reflexivity). subst w'.
              split; [unfold future; cbn; rewrite Hf; reflexivity|]. split; [reflexivity|reflexivity].
           ++ assert (Hn : w' = wnew) by (unfold wflush in Hf; destruct (wresults _ _ _); inversion Hf; reflexivity). subst w'.
              split; [|right; right; split; [reflexivity|split; [reflexivity|split; [cbn; discriminate|reflexivity]]]]. unfold future. cbn. rewrite Hf. cbn. rewrite app_nil_r. reflexivity.
        -- injection H as <- <-. unfold future. cbn. rewrite Hf. reflexivity.
      * injection H as <- <-. split; [unfold future; cbn [a_late a_buf a_src a_w map app]; apply option_map_cons|].
        right. left. cbn. split; [reflexivity|]. split; [right; lia|lia].
    + injection H as <- <-. split; [unfold future; cbn [a_late a_buf a_src a_w map app]; apply option_map_cons|].
      right. left. cbn. split; [reflexivity|]. split; [right; lia|lia].
  - destruct lates as [|x lates]; cbn [get_next a_late a_buf a_src a_w] in H.
    + destruct buf as [|v buf].
      * destruct e as [x|].
        -- destruct (process w x) as [[[w' out] l]|] eqn:Hp.
           ++ assert (Hfu : future (mkA (Some x :: src) w [] []) = future (mkA src w' ([] ++ out) ([] ++ l))).
              { unfold future. cbn [a_src a_w a_buf a_late]. change (items (Some x :: src)) with (x :: items src). cbn [to_come]. rewrite Hp.
                destruct (to_come (items src) w'); reflexivity. }
              rewrite Hfu. specialize (IH _ _ _ _ _ H). destruct o as [[y|]| |].
              ** destruct IH as [I1 I2]. split; [exact I1|]. left. cbn [length]. destruct I2 as [I2|[(I2 & _)|(_ & _ & _ & ->)]]; cbn; lia.
              ** exact IH.
              ** destruct IH as [I1 I2]. split; [exact I1|]. cbn [length]. lia.
              ** exact IH.
           ++ injection H as <- <-. unfold future. cbn. rewrite Hp. reflexivity.
        -- injection H as <- <-. split; [reflexivity|cbn; lia].
      * injection H as <- <-. split; [unfold future; cbn [a_late a_buf a_src a_w map app]; apply option_map_cons|].
        right. left. cbn. split; [reflexivity|]. split; [right; lia|lia].
    + injection H as <- <-. split; [unfold future; cbn [a_late a_buf a_src a_w map app]; apply option_map_cons|].
      right. left. cbn. split; [reflexivity|]. split; [right; lia|lia].
Qed.

(* the end is final *)
Lemma polls_end n a : poll a = (a, Ready None) -> polls n a = repeat (Ready None) n.
Proof. intros H. induction n as [|n IH]; cbn; [reflexivity|]. rewrite H. now rewrite IH. Qed.
Lemma given_repeat n : given (repeat (Ready None) n : list (answer (I := I) (V := V))) = [].
Proof. induction n; cbn; auto. Qed.

Lemma polls_future n : forall a, ~ In Crash (polls n a) ->
  (In (Ready None) (polls n a) -> future a = Some (given (polls n a))) /\
  (forall l, future a = Some l -> exists rest, l = given (polls n a) ++ rest).
Proof.
  induction n as [|n IH]; intros a Hc; cbn [WinModel.polls] in *.
  - split; [intros []|]. intros l _. exists l. reflexivity.
  - destruct (poll a) as [a' o] eqn:Hp. assert (Ha : a = mkA (a_src a) (a_w a) (a_buf a) (a_late a)) by (destruct a; reflexivity).
    pose proof (poll_src_step _ _ _ _ _ _ Hp) as Hs. rewrite <- Ha in Hs.
    assert (Hc' : ~ In Crash (polls n a')) by (intros Hx; apply Hc; right; exact Hx).
    destruct (IH a' Hc') as [I1 I2]. destruct o as [[y|]| |].
    + destruct Hs as [Hs _]. split.
      * intros [Hx|Hx]; [discriminate|]. rewrite Hs, (I1 Hx). reflexivity.
      * intros l Hl. rewrite Hs in Hl. destruct (future a') as [l'|] eqn:Hl'; [|discriminate]. cbn in Hl. injection Hl as <-.
        destruct (I2 l' eq_refl) as [rest ->]. exists rest. reflexivity.
    + destruct Hs as (H1 & H2 & H3). rewrite (polls_end n a' H3). change (given (Ready None :: repeat (Ready None) n)) with (given (repeat (Ready (V := V) (I := I) None) n)).
      rewrite given_repeat. split; [intros _; exact H1|]. intros l Hl. exists l. reflexivity.
    + destruct Hs as [Hs _]. rewrite Hs. split.
      * intros [Hx|Hx]; [discriminate|]. exact (I1 Hx).
      * exact I2.
    + exfalso. apply Hc. left. reflexivity.
Qed.
Lemma polls_crash n : forall a, In Crash (polls n a) -> future a = None.
Proof.
  induction n as [|n IH]; intros a Hc; cbn [WinModel.polls] in *; [destruct Hc|].
  destruct (poll a) as [a' o] eqn:Hp. assert (Ha : a = mkA (a_src a) (a_w a) (a_buf a) (a_late a)) by (destruct a; reflexivity).
  pose proof (poll_src_step _ _ _ _ _ _ Hp) as Hs. rewrite <- Ha in Hs. destruct o as [[y|]| |].
  - destruct Hc as [Hc|Hc]; [discriminate|]. destruct Hs as [-> _]. rewrite (IH _ Hc). reflexivity.
  - destruct Hs as (H1 & H2 & H3). rewrite (polls_end n a' H3) in Hc. destruct Hc as [Hc|Hc]; [discriminate|].
    apply repeat_spec in Hc. discriminate.
  - destruct Hc as [Hc|Hc]; [discriminate|]. destruct Hs as [-> _]. exact (IH _ Hc).
  - exact Hs.
Qed.
(* the end is reached *)
Lemma polls_S a a' o n : poll a = (a', o) -> polls (S n) a = o :: polls n a'.
Proof. intros H. cbn. now rewrite H. Qed.
Lemma finish_some : forall m a l, future a = Some l -> (length l + length (a_src a) <= m)%nat ->
  exists n, In (Ready None) (polls n a).
Proof.
  induction m as [|m IH]; intros a l Hl Hm; destruct (poll a) as [a' o] eqn:Hp;
  assert (Ha : a = mkA (a_src a) (a_w a) (a_buf a) (a_late a)) by (destruct a; reflexivity);
  pose proof (poll_src_step _ _ _ _ _ _ Hp) as Hs; rewrite <- Ha in Hs; destruct o as [[y|]| |].
  - destruct Hs as [Hs _]. rewrite Hl in Hs. destruct (future a'); [|discriminate]. cbn in Hs. injection Hs as Hs. subst l. cbn in Hm. lia.
  - exists 1%nat. rewrite (polls_S _ _ _ _ Hp). left. reflexivity.
  - destruct Hs as [_ Hs]. lia.
  - congruence.
  - destruct Hs as [Hs Ho]. rewrite Hl in Hs. destruct (future a') as [l'|] eqn:Hl'; [|discriminate]. cbn in Hs. injection Hs as Hs. subst l.
    assert (Hle : (length (a_src a') <= length (a_src a))%nat).
    { clear -Hp Ha. rewrite Ha in Hp. unfold WinModel.poll in Hp. cbn [a_src a_w a_buf a_late] in Hp.
      revert Hp. generalize (a_w a), (a_buf a), (a_late a). generalize (a_src a). intros src.
      induction src as [|e src IH]; intros w buf lates Hp; cbn [WinModel.poll_src] in Hp.
      - destruct lates as [|x lates]; cbn [get_next a_late a_buf a_src a_w] in Hp; [|injection Hp as <- <-; cbn; lia].
        destruct buf as [|v buf]; [|injection Hp as <- <-; cbn; lia].
        destruct (wflush finish dur w) as [[w' out]|]; [|discriminate]. cbn [app] in Hp. destruct out; [discriminate|]. injection Hp as <- <-; cbn; lia.
      - destruct lates as [|x lates]; cbn [get_next a_late a_buf a_src a_w] in Hp; [|injection Hp as <- <-; cbn; lia].
        destruct buf as [|v buf]; [|injection Hp as <- <-; cbn; lia].
        destruct e as [x|]; [|discriminate]. destruct (process w x) as [[[w' out] l]|]; [|discriminate].
        specialize (IH _ _ _ Hp). cbn. lia. }
    destruct (IH a' l' Hl' ltac:(cbn in Hm; lia)) as [n Hn]. exists (S n). rewrite (polls_S _ _ _ _ Hp). right. exact Hn.
  - exists 1%nat. rewrite (polls_S _ _ _ _ Hp). left. reflexivity.
  - destruct Hs as [Hs1 Hs2]. rewrite Hl in Hs1. destruct (IH a' l (eq_sym Hs1) ltac:(lia)) as [n Hn].
    exists (S n). rewrite (polls_S _ _ _ _ Hp). right. exact Hn.
  - congruence.
Qed.
Lemma finish_none : forall ns nb a, length (a_src a) = ns -> (length (a_buf a) + length (a_late a) = nb)%nat -> future a = None ->
  exists n, In Crash (polls n a).
Proof.
  intros ns. induction ns as [ns IHs] using lt_wf_ind. intros nb. induction nb as [nb IHb] using lt_wf_ind. intros a H1 H2 H3.
  destruct (poll a) as [a' o] eqn:Hp. assert (Ha : a = mkA (a_src a) (a_w a) (a_buf a) (a_late a)) by (destruct a; reflexivity).
  pose proof (poll_src_step _ _ _ _ _ _ Hp) as Hs. rewrite <- Ha in Hs. destruct o as [[y|]| |].
  - destruct Hs as [Hs Ho]. assert (Hn : future a' = None) by (rewrite H3 in Hs; destruct (future a'); [discriminate|reflexivity]).
    destruct Ho as [Hs1|[(Hs1 & _ & Hs2)|(Hs1 & Hs2 & Hs3 & _)]]; [| |congruence].
    + destruct (IHs (length (a_src a')) ltac:(lia) _ a' eq_refl eq_refl Hn) as [n Hx]. exists (S n). rewrite (polls_S _ _ _ _ Hp). right. exact Hx.
    + destruct (IHb (length (a_buf a') + length (a_late a'))%nat ltac:(lia) a' ltac:(lia) eq_refl Hn) as [n Hx].
      exists (S n). rewrite (polls_S _ _ _ _ Hp). right. exact Hx.
  - destruct Hs. congruence.
  - destruct Hs as [Hs1 Hs2]. destruct (IHs (length (a_src a')) ltac:(lia) _ a' eq_refl eq_refl ltac:(congruence)) as [n Hx].
    exists (S n). rewrite (polls_S _ _ _ _ Hp). right. exact Hx.
  - exists 1%nat. rewrite (polls_S _ _ _ _ Hp). left. reflexivity.
Qed.
Lemma polls_finish a : exists n, In (Ready None) (polls n a) \/ In Crash (polls n a).
Proof.
  destruct (future a) as [l|] eqn:Hl.
  - destruct (finish_some _ a l Hl (le_n _)) as [n Hn]. exists n. left. exact Hn.
  - destruct (finish_none _ _ a eq_refl eq_refl Hl) as [n Hn]. exists n. right. exact Hn.
Qed.
End Adaptor.
End P.
