(* From the collecting aggregator to any aggregator behind the adaptor. *)
From Verif Require Import Base MapLib WinModel WinSpec WinProofs WinRunProofs WinGroupProofs.
From Coq Require Import ZArith Lia Permutation Sorted ZifyBool.
Local Open Scope Z_scope.

Section T.
Context {K I A V : Type} (keqb : K -> K -> bool) (key_of : I -> K) (ts_of : I -> Z).
Hypothesis keqb_spec : forall a b, reflect (a = b) (keqb a b).
Context (init : A) (push : A -> I -> A) (finish : A -> V) (dur late : Z).
Local Notation agg := (agg_of init push).
Local Notation process := (process_item keqb key_of ts_of init push finish dur late).
Local Notation poll_src := (poll_src keqb key_of ts_of init push finish dur late).
Local Notation poll := (poll keqb key_of ts_of init push finish dur late).
Local Notation polls := (polls keqb key_of ts_of init push finish dur late).
Local Notation future := (future keqb key_of ts_of dur late init push finish).
Local Notation lifto := (lift_o init push finish).
Definition lift_item (o : (window * list I) + I) : (window * V) + I :=
  match o with inl w => inl (fst w, finish (agg (snd w))) | inr x => inr x end.

Lemma lift_items o l : map lift_item (map inr l ++ map inl o) = map inr l ++ map inl (lifto o).
Proof. unfold lift_o. rewrite map_app, !map_map. reflexivity. Qed.
Lemma to_come_lift xs : forall w,
  to_come keqb key_of ts_of dur late init push finish xs (lift_w init push w)
  = option_map (map lift_item) (to_come keqb key_of ts_of dur late [] snoc (fun l => l) xs w).
Proof.
  induction xs as [|x xs IH]; intros w; cbn [to_come].
  - rewrite flush_lift. destruct (wflush (fun l => l) dur w) as [[w' o]|]; [|reflexivity]. cbn. f_equal. unfold lift_o. rewrite !map_map. reflexivity.
  - rewrite process_lift. destruct (process_item _ _ _ _ _ _ _ _ w x) as [[[w' o] l]|]; [|reflexivity]. cbn [option_map]. rewrite IH.
    destruct (to_come _ _ _ _ _ _ _ _ xs w') as [out|]; [|reflexivity]. cbn [option_map]. now rewrite map_app, lift_items.
Qed.
Lemma future_new src :
  future (adaptor_new src) = option_map (map lift_item) (to_come keqb key_of ts_of dur late [] snoc (fun l => l) (items src) wnew).
Proof.
  unfold WinProofs.future, adaptor_new. cbn [a_src a_w a_buf a_late map app]. rewrite option_map_id by reflexivity.
  change (@wnew K A) with (lift_w init push (@wnew K (list I))). apply to_come_lift.
Qed.
Lemma windows_given ans : windows_of (I := I) (V := V) ans = lefts (given ans).
Proof. unfold windows_of, given, lefts. induction ans as [|[[[w|x]|]| |] ans IH]; cbn; auto. now rewrite IH. Qed.
Lemma lates_given ans : lates_of (I := I) (V := V) ans = rights (given ans).
Proof. unfold lates_of, given, rights. induction ans as [|[[[w|x]|]| |] ans IH]; cbn; auto. now rewrite IH. Qed.
Lemma lefts_lift l : lefts (map lift_item l) = lifto (lefts l).
Proof. unfold lefts, lift_o. induction l as [|[w|x] l IH]; cbn; auto. now rewrite IH. Qed.
Lemma rights_lift l : rights (map lift_item l) = rights l.
Proof. unfold rights. induction l as [|[w|x] l IH]; cbn; auto. now rewrite IH. Qed.

Lemma ended src n : ~ In Crash (polls n (adaptor_new src)) -> In (Ready None) (polls n (adaptor_new src)) ->
  exists out, to_come keqb key_of ts_of dur late [] snoc (fun l => l) (items src) wnew = Some out /\
    windows_of (polls n (adaptor_new src)) = lifto (lefts out) /\ lates_of (polls n (adaptor_new src)) = rights out.
Proof.
  intros Hc He. destruct (polls_future keqb key_of ts_of keqb_spec dur late init push finish n _ Hc) as [Hf _]. specialize (Hf He). rewrite future_new in Hf.
  destruct (to_come _ _ _ _ _ _ _ _ _ _) as [out|]; [|discriminate]. cbn in Hf. injection Hf as Hf. exists out. split; [reflexivity|].
  rewrite windows_given, lates_given, <- Hf, lefts_lift, rights_lift. auto.
Qed.

(* ---- what is out when the source has nothing more for now ---- *)
Fixpoint so_far (xs : list I) (w : wstate (K := K) (A := A)) : option (list ((window * V) + I)) :=
  match xs with
  | [] => Some []
  | x :: r => match process w x with
              | None => None
              | Some (w', o, l) => option_map (app (map inr l ++ map inl o)) (so_far r w')
              end
  end.
Lemma so_far_poll rest xs : forall w buf lates a' o, poll_src (map Some xs ++ None :: rest) w buf lates = (a', o) ->
  let now a xs := option_map (app (map inr (a_late a) ++ map inl (a_buf a))) (so_far xs (a_w a)) in
  match o with
  | Ready (Some y) => exists xs', a_src a' = map Some xs' ++ None :: rest /\
      now (mkA (map Some xs ++ None :: rest) w buf lates) xs = option_map (cons y) (now a' xs')
  | Pending => now (mkA (map Some xs ++ None :: rest) w buf lates) xs = Some []
  | Ready None => False
  | Crash => True
  end.
Proof.
  cbv zeta. induction xs as [|x xs IH]; intros w buf lates a' o H; cbn [map app WinModel.poll_src] in H.
  - destruct lates as [|z lates]; cbn [get_next a_late a_buf a_src a_w] in H.
    + destruct buf as [|v buf]; injection H as <- <-; [reflexivity|]. exists []. split; reflexivity.
    + injection H as <- <-. exists []. split; reflexivity.
  - destruct lates as [|z lates]; cbn [get_next a_late a_buf a_src a_w] in H.
    + destruct buf as [|v buf].
      * destruct (process w x) as [[[w' out] l]|] eqn:Hp; [|injection H as <- <-; exact Logic.I].
        specialize (IH _ _ _ _ _ H). destruct o as [[y|]| |]; auto.
        -- destruct IH as (xs' & I1 & I2). exists xs'. split; [exact I1|]. rewrite <- I2. cbn [so_far a_w a_late a_buf map app]. rewrite Hp.
           destruct (so_far xs w'); reflexivity.
        -- rewrite <- IH. cbn [so_far a_w a_late a_buf map app]. rewrite Hp. destruct (so_far xs w'); reflexivity.
      * injection H as <- <-. exists (x :: xs). split; [reflexivity|]. cbn [a_w a_late a_buf map app]. apply option_map_cons.
    + injection H as <- <-. exists (x :: xs). split; [reflexivity|]. cbn [a_w a_late a_buf map app]. apply option_map_cons.
Qed.
Lemma so_far_polls rest n : forall a xs ans, a_src a = map Some xs ++ None :: rest -> polls n a = ans ++ [Pending] ->
  ~ In Pending ans -> ~ In Crash ans ->
  option_map (app (map inr (a_late a) ++ map inl (a_buf a))) (so_far xs (a_w a)) = Some (given ans).
Proof.
  induction n as [|n IH]; intros a xs ans Hs Hp Hn Hc; cbn [WinModel.polls] in Hp; [destruct ans; discriminate|].
  destruct (poll a) as [a' o] eqn:Ho. unfold WinModel.poll in Ho. rewrite Hs in Ho. pose proof (so_far_poll _ _ _ _ _ _ _ Ho) as Hx. cbv zeta in Hx.
  cbn [a_late a_buf a_w] in Hx. destruct ans as [|o' ans].
  - cbn [app] in Hp. injection Hp as -> _. exact Hx.
  - cbn [app] in Hp. injection Hp as <- Hp. destruct o as [[y|]| |].
    + destruct Hx as (xs' & H1 & H2). rewrite H2. rewrite (IH a' xs' ans H1 Hp).
      * reflexivity.
      * intros Hy. apply Hn. right. exact Hy.
      * intros Hy. apply Hc. right. exact Hy.
    + destruct Hx.
    + exfalso. apply Hn. left. reflexivity.
    + exfalso. apply Hc. left. reflexivity.
Qed.
End T.

Section T2.
Context {K I A V : Type} (keqb : K -> K -> bool) (key_of : I -> K) (ts_of : I -> Z).
Hypothesis keqb_spec : forall a b, reflect (a = b) (keqb a b).
Context (init : A) (push : A -> I -> A) (finish : A -> V) (dur late : Z).
Local Notation agg := (agg_of init push).
Local Notation polls := (polls keqb key_of ts_of init push finish dur late).

Lemma so_far_lift xs : forall w,
  so_far keqb key_of ts_of init push finish dur late xs (lift_w init push w)
  = option_map (map (lift_item init push finish)) (so_far keqb key_of ts_of [] snoc (fun l => l) dur late xs w).
Proof.
  induction xs as [|x xs IH]; intros w; cbn [so_far]; [reflexivity|].
  rewrite process_lift. destruct (process_item _ _ _ _ _ _ _ _ w x) as [[[w' o] l]|]; [|reflexivity]. cbn [option_map]. rewrite IH.
  destruct (so_far _ _ _ _ _ _ _ _ xs w') as [out|]; [|reflexivity]. cbn [option_map]. now rewrite map_app, lift_items.
Qed.
Lemma so_far_lrun xs : forall w e0 l0 out, so_far keqb key_of ts_of [] snoc (fun l => l) dur late xs w = Some out ->
  exists w' e l, lrun keqb key_of ts_of dur late xs (w, e0, l0) = Some (w', e, l) /\ e0 ++ lefts out = e /\ l0 ++ rights out = l.
Proof.
  induction xs as [|x xs IH]; intros w e0 l0 out H; cbn [so_far lrun] in *.
  - injection H as <-. cbn. rewrite !app_nil_r. eauto 6.
  - destruct (process_item _ _ _ _ _ _ _ _ w x) as [[[w' o] l']|] eqn:Hp; [|discriminate].
    destruct (so_far _ _ _ _ _ _ _ _ xs w') as [out'|] eqn:Ht; [|discriminate]. cbn in H. injection H as <-.
    destruct (IH w' (e0 ++ o) (l0 ++ l') out' Ht) as (w2 & e & l & H1 & H3 & H4).
    exists w2, e, l. split; [exact H1|].
    rewrite !lefts_app, !rights_app, lefts_inl, lefts_inr, rights_inl, rights_inr, app_nil_r. cbn [app].
    rewrite !app_assoc in *. auto.
Qed.
Lemma waiting xs rest n ans :
  polls n (adaptor_new (map Some xs ++ None :: rest)) = ans ++ [Pending] -> ~ In Pending ans -> ~ In Crash ans ->
  exists w' e l, lrun keqb key_of ts_of dur late xs (wnew, [], []) = Some (w', e, l) /\
    windows_of ans = lift_o init push finish e /\ lates_of ans = l.
Proof.
  intros Hp Hn Hc. pose proof (so_far_polls keqb key_of ts_of init push finish dur late rest n (adaptor_new (map Some xs ++ None :: rest)) xs ans eq_refl Hp Hn Hc) as H.
  cbn [adaptor_new a_late a_buf a_w map app] in H. rewrite option_map_id in H by reflexivity.
  change (@wnew K A) with (lift_w init push (@wnew K (list I))) in H. rewrite so_far_lift in H.
  destruct (so_far _ _ _ _ _ _ _ _ _ _) as [out|] eqn:Ho; [|discriminate]. cbn in H. injection H as H.
  destruct (so_far_lrun xs wnew [] [] out Ho) as (w' & e & l & H1 & H2 & H3). exists w', e, l. split; [exact H1|].
  rewrite windows_given, lates_given, <- H. rewrite lefts_lift, rights_lift. cbn [app] in *. subst. auto.
Qed.

(* ---- no panic while times stay away from the ends of the calendar ---- *)
Definition roomy (t : Z) : Prop := time_min + late + dur + minute <= t <= time_max - dur.
Lemma range_ok t : time_min <= t <= time_max -> in_range t = true.
Proof. unfold in_range. lia. Qed.
Definition safe_state (w : wstate (K := K) (A := A)) : Prop :=
  (forall k t, mget keqb k (w_now w) = Some t -> roomy t) /\
  (forall k m, In (k, m) (w_active w) -> Forall (fun e => time_min <= fst e <= time_max - dur) m).
Lemma wpush_starts s x m (P : Z -> Prop) : P s -> Forall (fun e => P (fst e)) m -> Forall (fun e => P (fst e)) (wpush init push s x m).
Proof.
  intros Hs. induction 1 as [|[s' a] m H1 H2 IH]; cbn [wpush]; [repeat constructor; exact Hs|].
  destruct (s =? s'); [constructor; auto|]. destruct (s <? s'); repeat (constructor; auto).
Qed.
Lemma wresults_some m : 0 <= dur -> Forall (fun e => time_min <= fst e <= time_max - dur) m -> wresults finish dur m <> None.
Proof.
  intros Hd. induction 1 as [|[s a] m H1 H2 IH]; cbn [wresults]; [discriminate|]. unfold time_add. cbn [fst] in H1. rewrite range_ok by lia.
  destruct (wresults finish dur m); congruence.
Qed.
Lemma In_mset (k : K) (m : list (Z * A)) k' m' l : In (k', m') (mset keqb k m l) -> (k', m') = (k, m) \/ In (k', m') l.
Proof.
  induction l as [|[k1 m1] l IH]; cbn; [intros [H|[]]; auto|]. destruct (keqb_spec k k1) as [->|].
  - intros [H|H]; auto.
  - intros [H|H]; [auto|]. destruct (IH H); auto.
Qed.
Lemma process_roomy w x : 0 <= dur -> 0 <= late -> safe_state w -> roomy (ts_of x) ->
  exists w' o l, process_item keqb key_of ts_of init push finish dur late w x = Some (w', o, l) /\ safe_state w'.
Proof.
  intros Hd Hl [S1 S2] Hx. unfold process_item. set (now := match mget keqb (key_of x) (w_now w) with Some t => t | None => ts_of x end).
  assert (Hn : roomy now). { unfold now. destruct (mget keqb (key_of x) (w_now w)) as [t|] eqn:Ht; [exact (S1 _ _ Ht)|exact Hx]. }
  assert (Hn' : roomy (Z.max now (ts_of x))) by (unfold roomy in *; lia).
  pose proof minute_pos as Hm. assert (Hsub : forall t, roomy t -> time_sub t late = Some (t - late)).
  { intros t Ht. unfold time_sub. rewrite range_ok; [reflexivity|]. unfold roomy in Ht. lia. }
  rewrite !Hsub by assumption. destruct (ts_of x <? now - late).
  - eexists _, _, _. split; [reflexivity|]. split; [|exact S2]. cbn [w_now]. intros k t. rewrite (mget_mset keqb keqb_spec).
    destruct (keqb k (key_of x)); [intros H; injection H as <-; exact Hn|apply S1].
  - set (now' := Z.max now (ts_of x)) in *. pose proof (ws_le (now' - late)). pose proof (ws_lt (now' - late)).
    unfold time_sub. rewrite range_ok by (unfold roomy in Hn'; lia).
    set (ws := wpush _ _ _ _ _).
    assert (Hws : Forall (fun e => time_min <= fst e <= time_max - dur) ws).
    { apply wpush_starts with (P := fun s => time_min <= s <= time_max - dur).
      - pose proof (ws_le (ts_of x)). pose proof (ws_lt (ts_of x)). unfold roomy in Hx. lia.
      - destruct (mget keqb (key_of x) (w_active w)) as [m|] eqn:Hg; [|constructor]. apply (S2 (key_of x)). apply (mget_In keqb keqb_spec). exact Hg. }
    assert (Hff : forall p, Forall (fun e => time_min <= fst e <= time_max - dur) (filter p ws)).
    { intros p. apply Forall_forall. intros e He. apply filter_In in He as [He _]. rewrite Forall_forall in Hws. auto. }
    destruct (wresults finish dur (filter _ ws)) as [out|] eqn:Ho; [|exfalso; revert Ho; apply wresults_some; auto].
    eexists _, _, _. split; [reflexivity|]. split; cbn [w_now w_active].
    + intros k t. rewrite (mget_mset keqb keqb_spec). destruct (keqb k (key_of x)); [intros Hy; injection Hy as <-; exact Hn'|apply S1].
    + intros k m Hin. apply In_mset in Hin as [Hin|Hin]; [injection Hin as -> ->; apply Hff|exact (S2 _ _ Hin)].
Qed.
Lemma roomy_future xs : forall w, 0 <= dur -> 0 <= late -> safe_state w -> Forall (fun x => roomy (ts_of x)) xs ->
  to_come keqb key_of ts_of dur late init push finish xs w <> None.
Proof.
  intros w Hd Hl. revert w. induction xs as [|x xs IH]; intros w Hs Hx; cbn [to_come].
  - unfold wflush. destruct (wresults finish dur _) as [out|] eqn:Ho; [discriminate|]. exfalso. revert Ho. apply wresults_some; [exact Hd|].
    destruct Hs as [_ Hs]. apply Forall_forall. intros e He. apply in_flat_map in He as ([k m] & Hm & He). specialize (Hs k m Hm). rewrite Forall_forall in Hs. auto.
  - inversion Hx as [|? ? H1 H2]; subst. destruct (process_roomy w x Hd Hl Hs H1) as (w' & o & l & -> & Hs').
    specialize (IH w' Hs' H2). destruct (to_come _ _ _ _ _ _ _ _ xs w'); [discriminate|congruence].
Qed.
Lemma roomy_no_crash src n : 0 <= dur -> 0 <= late -> Forall (fun x => roomy (ts_of x)) (items src) -> ~ In Crash (polls n (adaptor_new src)).
Proof.
  intros Hd Hl Hx Hc. apply polls_crash in Hc; [|exact keqb_spec]. unfold future, adaptor_new in Hc. cbn [a_src a_w a_buf a_late map app] in Hc.
  assert (Hs : safe_state wnew) by (split; [intros ? ? H; discriminate|intros ? ? []]).
  pose proof (roomy_future (items src) wnew Hd Hl Hs Hx). destruct (to_come _ _ _ _ _ _ _ _ _ _); [discriminate|congruence].
Qed.
End T2.
