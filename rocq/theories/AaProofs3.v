(* Configuration, and the turns after the input has closed. *)
From Verif Require Import Base MapLib WinModel AgModel AgProofs AaModel AaSpec AaProofs AaProofs2.
From Verif Require WinSpec AgSpec WinProofs WinTopProofs.
From Coq Require Import ZArith Lia Permutation.

Section Config.
Context (def : N -> iedef).
(* every operation with its place, in order *)
Definition places (t : N * transform) : list (fref * op) :=
  match snd t with Single o => [((fst t, 0), o)] | Multi m => map (fun x => ((fst t, fst x), snd x)) m end.
Definition key_places (l : list (fref * op)) : list fref := flat_map (fun x => match snd x with Key => [fst x] | Agg _ => [] end) l.
Definition agg_places (l : list (fref * op)) : list (fref * aggop) := flat_map (fun x => match snd x with Key => [] | Agg a => [(fst x, a)] end) l.
Definition fine (x : fref * op) : Prop := compatible (def (fst (fst x))) (snd x) = true.

Lemma select_one_ok ie i o acc : match select_one def ie i o acc with
  | inl _ => ~ fine ((ie, i), o)
  | inr r => fine ((ie, i), o) /\ r = (fst acc ++ key_places [((ie, i), o)], snd acc ++ agg_places [((ie, i), o)])
  end.
Proof.
  unfold select_one, fine. cbn [fst snd]. destruct (compatible (def ie) o); [|discriminate]. destruct o; (split; [reflexivity|]); cbn; now rewrite app_nil_r.
Qed.
Lemma select_multi_ok ie m : forall acc, match select_multi def ie m acc with
  | inl _ => ~ Forall fine (places (ie, Multi m))
  | inr r => Forall fine (places (ie, Multi m)) /\ r = (fst acc ++ key_places (places (ie, Multi m)), snd acc ++ agg_places (places (ie, Multi m)))
  end.
Proof.
  induction m as [|[i o] m IH]; intros acc; cbn [select_multi].
  - cbn. split; [constructor|]. rewrite !app_nil_r. now destruct acc.
  - pose proof (select_one_ok ie i o acc) as H1. destruct (select_one def ie i o acc) as [e|r].
    + intros H. apply H1. inversion H; subst. assumption.
    + destruct H1 as [F ->]. specialize (IH (fst acc ++ key_places [((ie, i), o)], snd acc ++ agg_places [((ie, i), o)])).
      destruct (select_multi def ie m _) as [e|r].
      * intros H. apply IH. inversion H; subst. assumption.
      * destruct IH as [F2 ->]. split; [constructor; assumption|]. cbn [fst snd]. unfold places, key_places, agg_places. cbn [fst snd map flat_map]. now rewrite !app_nil_r, <- !app_assoc.
Qed.
Lemma select_ok l : forall acc, match select def l acc with
  | inl _ => ~ Forall fine (flat_map places l)
  | inr r => Forall fine (flat_map places l) /\ r = (fst acc ++ key_places (flat_map places l), snd acc ++ agg_places (flat_map places l))
  end.
Proof.
  induction l as [|[ie t] l IH]; intros acc; cbn [select flat_map].
  - cbn. split; [constructor|]. rewrite !app_nil_r. now destruct acc.
  - assert (H1 : match (match t with Single o => select_one def ie 0 o acc | Multi m => select_multi def ie m acc end) with
      | inl _ => ~ Forall fine (places (ie, t))
      | inr r => Forall fine (places (ie, t)) /\ r = (fst acc ++ key_places (places (ie, t)), snd acc ++ agg_places (places (ie, t))) end).
    { destruct t as [o|m]; [|apply select_multi_ok]. pose proof (select_one_ok ie 0 o acc) as H. destruct (select_one def ie 0 o acc).
      - intros F. apply H. inversion F; assumption.
      - destruct H as [H ->]. split; [repeat constructor; exact H|reflexivity]. }
    destruct (match t with Single o => _ | Multi m => _ end) as [e|r].
    + rewrite Forall_app. tauto.
    + destruct H1 as [F ->]. specialize (IH (fst acc ++ key_places (places (ie, t)), snd acc ++ agg_places (places (ie, t)))).
      destruct (select def l _) as [e|r].
      * rewrite Forall_app. tauto.
      * destruct IH as [F2 ->]. split; [apply Forall_app; auto|]. cbn [fst snd]. unfold key_places, agg_places. now rewrite !flat_map_app, <- !app_assoc.
Qed.
Lemma configured_places c ie i o : configured c ie i o <-> In ((ie, i), o) (flat_map places (c_transform c)).
Proof.
  unfold configured. rewrite in_flat_map. split.
  - intros (t & Ht & H). exists (ie, t). split; [exact Ht|]. unfold places. cbn [fst snd]. destruct t as [o'|m].
    + destruct H as [-> ->]. now left.
    + apply in_map_iff. exists (i, o). auto.
  - intros ([ie' t] & Ht & H). unfold places in H. cbn [fst snd] in H. destruct t as [o'|m].
    + destruct H as [[= <- <- <-]|[]]. exists (Single o'). auto.
    + apply in_map_iff in H as ([i' o'] & [= <- <- <-] & H). exists (Multi m). auto.
Qed.
Lemma compatible_allowed d o : compatible d o = true <-> allowed d o.
Proof.
  destruct o as [|[]]; cbn [compatible allowed].
  - tauto.
  - unfold supports_arithmetic_ops. destruct (d_ident_or_flags d), (d_registry d), (d_type d); cbn; intuition discriminate.
  - unfold supports_comparison_ops. destruct (d_type d); cbn; intuition discriminate.
  - unfold supports_comparison_ops. destruct (d_type d); cbn; intuition discriminate.
  - unfold supports_bitwise_ops. destruct (d_type d); cbn; intuition discriminate.
Qed.
Lemma fine_all c : Forall fine (flat_map places (c_transform c)) <-> forall ie i o, configured c ie i o -> allowed (def ie) o.
Proof.
  rewrite Forall_forall. split.
  - intros H ie i o Hc. apply configured_places in Hc. apply compatible_allowed. exact (H _ Hc).
  - intros H [[ie i] o] Hc. apply configured_places in Hc. apply compatible_allowed. eauto.
Qed.
Lemma try_into_ok c u : try_into def c = inr u <->
  0 < c_window c /\ c_lateness c <= c_window c /\ Forall fine (flat_map places (c_transform c)) /\
  u = mkUnified (c_window c) (c_lateness c) (key_places (flat_map places (c_transform c))) (agg_places (flat_map places (c_transform c))).
Proof.
  unfold try_into, validate. destruct (N.eqb_spec (c_window c) 0) as [E|E]; [split; [discriminate|lia]|].
  destruct (N.ltb_spec (c_window c) (c_lateness c)) as [L|L]; [split; [discriminate|lia]|].
  pose proof (select_ok (c_transform c) ([], [])) as H. destruct (select def (c_transform c) ([], [])) as [e|r].
  - split; [discriminate|]. tauto.
  - destruct H as [F ->]. cbn [fst snd app]. split.
    + intros [= <-]. repeat split; auto; lia.
    + intros (_ & _ & _ & ->). reflexivity.
Qed.
Lemma in_key_places l r : In r (key_places l) <-> In (r, Key) l.
Proof.
  unfold key_places. rewrite in_flat_map. split.
  - intros ([x [|a]] & H & Hx); [|destruct Hx]. destruct Hx as [<-|[]]. exact H.
  - intros H. exists (r, Key). split; [exact H|now left].
Qed.
Lemma in_agg_places l r a : In (r, a) (agg_places l) <-> In (r, Agg a) l.
Proof.
  unfold agg_places. rewrite in_flat_map. split.
  - intros ([x [|b]] & H & Hx); [destruct Hx|]. destruct Hx as [[= <- <-]|[]]. exact H.
  - intros H. exists (r, Agg a). split; [exact H|now left].
Qed.
Lemma places_split l : Permutation (key_places l ++ map fst (agg_places l)) (map fst l).
Proof.
  induction l as [|[r [|a]] l IH]; cbn [key_places agg_places flat_map map fst snd app]; [constructor|constructor; exact IH|].
  etransitivity; [apply Permutation_sym, Permutation_middle|]. constructor. exact IH.
Qed.
Lemma places_nodup l : NoDup (map fst l) -> (forall ie m, In (ie, Multi m) l -> NoDup (map fst m)) -> NoDup (map fst (flat_map places l)).
Proof.
  induction l as [|[ie t] l IH]; intros Hn Hm; cbn [flat_map map fst]; [constructor|]. inversion Hn as [|? ? Hx Hn']; subst. rewrite map_app.
  assert (IH' : NoDup (map fst (flat_map places l))) by (apply IH; [exact Hn'|intros; eapply Hm; right; eauto]).
  assert (H1 : NoDup (map fst (places (ie, t)))).
  { unfold places. cbn [fst snd]. destruct t as [o|m]; [repeat constructor; cbn; tauto|]. rewrite map_map. cbn [fst].
    assert (Hm' : NoDup (map fst m)) by (eapply Hm; left; reflexivity). clear -Hm'. induction m as [|[i o] m IHm]; cbn [map fst]; [constructor|]. cbn [map fst] in Hm'. inversion Hm' as [|? ? Hi Hn]; subst. constructor; [|auto].
    intros Hc. apply in_map_iff in Hc as ([i' o'] & [= ->] & Hc). apply Hi. apply in_map_iff. exists (i, o'). auto. }
  assert (Hdis : forall r, In r (map fst (places (ie, t))) -> ~ In r (map fst (flat_map places l))).
  { intros r Hr Hc. assert (Er : fst r = ie).
    { unfold places in Hr. cbn [fst snd] in Hr. destruct t as [o|m]; [destruct Hr as [<-|[]]; reflexivity|]. rewrite map_map in Hr. apply in_map_iff in Hr as (x & <- & _). reflexivity. }
    apply in_map_iff in Hc as (x & <- & Hc). apply in_flat_map in Hc as ([ie' t'] & Hin & Hc). apply Hx. apply in_map_iff. exists (ie', t'). split; [|exact Hin].
    unfold places in Hc. cbn [fst snd] in *. destruct t' as [o|m]; [destruct Hc as [<-|[]]; exact Er|]. apply in_map_iff in Hc as (y & <- & _). exact Er. }
  revert H1 Hdis. generalize (map fst (places (ie, t))). intros k H1. induction H1 as [|z k Hz Hk IHk]; intros Hdis; cbn; [exact IH'|].
  constructor; [|apply IHk; intros r Hr; apply Hdis; now right]. intros Hc. apply in_app_or in Hc as [Hc|Hc]; [exact (Hz Hc)|]. exact (Hdis z (or_introl eq_refl) Hc).
Qed.
End Config.

(* ---- turns ---- *)
Section Turns.
Context (bits : N -> N) (u : unified).
Hypothesis Hd : 0 < u_window u.
Local Notation step := (step bits u).
Local Notation run := (run bits u).
Local Notation inv := (inv bits u).
Local Notation dur := (Z.of_N (u_window u)).
Local Notation late := (Z.of_N (u_lateness u)).
Local Notation all s := (flat_map (explode (u_keys u) (u_sel u)) (s_inputs s)).
Local Notation POLLS := (polls N.eqb item_key item_time win_init (win_push bits u) (fun c : option cache => c) dur late).
Local Notation adaptor_of s := (mkA (map Some (s_queue s)) (s_win s) (s_buf s) (s_late s)).
Local Notation PSRC := (poll_src N.eqb item_key item_time win_init (win_push bits u) (fun c : option cache => c) dur late).

Lemma poll_suffix q : forall w b l a' o, PSRC (map Some q) w b l = (a', o) -> map Some (remaining (a_src a')) = a_src a'.
Proof.
  assert (Hrem : forall p, map Some (remaining (map Some p)) = map (@Some (ckey * crec)) p).
  { intros p. unfold remaining. f_equal. induction p; cbn; congruence. }
  induction q as [|x q IH]; intros w b l a' o H; cbn [map poll_src] in H.
  - unfold get_next in H. cbn [a_late a_buf a_src a_w] in H. destruct l as [|z l]; [destruct b as [|v b]|].
    + destruct (wflush _ dur w) as [[w' out]|]; [|injection H as <- <-; reflexivity]. cbn [app] in H. destruct out; injection H as <- <-; reflexivity.
    + injection H as <- <-. reflexivity.
    + injection H as <- <-. reflexivity.
  - unfold get_next in H. cbn [a_late a_buf a_src a_w] in H. destruct l as [|z l]; [destruct b as [|v b]|].
    + destruct (process_item _ _ _ _ _ _ _ _ w x) as [[[w' out] l']|]; [apply (IH _ _ _ _ _ H)|]. injection H as <- <-. apply Hrem.
    + injection H as <- <-. apply (Hrem (x :: q)).
    + injection H as <- <-. apply (Hrem (x :: q)).
Qed.
Lemma turns n : forall s, inv s -> s_closed s = true -> s_cmd s = false -> s_ending s = Running ->
  Forall (fun x => WinTopProofs.roomy dur late (item_time x)) (all s) ->
  exists s', run s (repeat Turn n) = Some s' /\ s_answers s' = s_answers s ++ POLLS n (adaptor_of s) /\ ~ In Crash (POLLS n (adaptor_of s)) /\
    s_ending s' = Running /\ s_inputs s' = s_inputs s.
Proof.
  induction n as [|n IH]; intros s I Hc Hm Hr Hroom; cbn [repeat AaModel.run polls].
  - exists s. rewrite app_nil_r. repeat split; auto.
  - cbn [AaModel.step]. rewrite Hr. pose proof (no_panic bits u Hd s I Hroom Hr) as Hnp. pose proof (inv_turn bits u s Hr I) as I'.
    destruct (poll _ _ _ _ _ _ _ _ (adaptor_of s)) as [a' o] eqn:Hp.
    assert (Ht : exists ts e, turn bits u s = mkActor (remaining (a_src a')) true false e (a_w a') (a_buf a') (a_late a') ts (s_seq s) (s_inputs s) (s_answers s ++ [o]) (s_out s) /\
       (e = Running \/ e = Panicked) /\ (o = Crash -> e = Panicked)).
    { unfold turn. rewrite Hr, Hm, Hc. unfold win_poll. rewrite app_nil_r. rewrite Hp. eexists _, _. split; [reflexivity|]. split; [destruct o as [[[[? [|]]|]|]| |]; auto|intros ->; reflexivity]. }
    destruct Ht as (ts & e & Ht & He & Hcr). rewrite Ht in *. cbn [s_ending] in Hnp. destruct He as [->|He]; [|congruence].
    destruct (IH _ I' eq_refl eq_refl eq_refl) as (s' & H1 & H2 & H3 & H4 & H5); [exact Hroom|]. cbn [s_queue s_win s_buf s_late s_answers s_inputs] in *.
    assert (Ha : mkA (map Some (remaining (a_src a'))) (a_w a') (a_buf a') (a_late a') = a').
    { unfold poll in Hp. cbn [a_src a_w a_buf a_late] in Hp. rewrite (poll_suffix _ _ _ _ _ _ Hp). now destruct a'. }
    rewrite Ha in *. exists s'. rewrite H1. split; [reflexivity|]. split; [rewrite H2, <- app_assoc; reflexivity|]. split; [|auto].
    intros [Hx|Hx]; [|exact (H3 Hx)]. specialize (Hcr Hx). discriminate Hcr.
Qed.
Lemma end_comes s : inv s -> s_closed s = true -> s_cmd s = false -> s_ending s = Running ->
  Forall (fun x => WinTopProofs.roomy dur late (item_time x)) (all s) ->
  exists n s', run s (repeat Turn n) = Some s' /\ stream_over s' /\ s_inputs s' = s_inputs s.
Proof.
  intros I Hc Hm Hr Hroom.
  destruct (WinProofs.polls_finish N.eqb item_key item_time N.eqb_spec dur late win_init (win_push bits u) (fun c : option cache => c) (adaptor_of s)) as (n & Hn).
  destruct (turns n s I Hc Hm Hr Hroom) as (s' & H1 & H2 & H3 & _ & H5). exists n, s'. split; [exact H1|]. split; [|exact H5].
  unfold stream_over. rewrite H2. apply in_or_app. right. tauto.
Qed.
(* after the end *)
Lemma over_turn s : inv s -> stream_over s -> s_cmd s = false -> s_ending s = Running ->
  turn bits u s = mkActor (s_queue s) (s_closed s) false Running (s_win s) (s_buf s) (s_late s) (s_tasks s) (s_seq s) (s_inputs s) (s_answers s ++ [Ready None]) (s_out s).
Proof.
  intros [I1 _ _ _ _] Hov Hm Hr. destruct I1 as [C|[[Hn _]|F]]; [congruence|destruct (Hn Hov)|].
  destruct F as (F1 & F2 & F3 & _ & F5 & _). destruct (F5 Hov) as [Eb El]. unfold turn. rewrite Hr, Hm, F1, F2. unfold win_poll, poll. cbn [a_src a_w a_buf a_late map app]. rewrite F3, Eb, El. reflexivity.
Qed.
Lemma spins n : forall s, inv s -> stream_over s -> s_cmd s = false -> s_ending s = Running ->
  exists s', run s (repeat Turn n) = Some s' /\ s_ending s' = Running /\ s_answers s' = s_answers s ++ repeat (Ready None) n.
Proof.
  induction n as [|n IH]; intros s I Hov Hm Hr; cbn [repeat AaModel.run].
  - exists s. rewrite app_nil_r. auto.
  - cbn [AaModel.step]. rewrite Hr. pose proof (inv_turn bits u s Hr I) as I'. rewrite (over_turn s I Hov Hm Hr) in *.
    destruct (IH _ I') as (s' & H1 & H2 & H3); [unfold stream_over; cbn; apply in_or_app; now left|reflexivity|reflexivity|].
    exists s'. rewrite H1. split; [reflexivity|]. split; [exact H2|]. rewrite H3. cbn [s_answers]. now rewrite <- app_assoc.
Qed.
Lemma ended_answers es : forall s s', s_ending s <> Running -> run s es = Some s' -> s_answers s' = s_answers s /\ s_ending s' = s_ending s.
Proof.
  induction es as [|e es IH]; intros s s' He; cbn [AaModel.run]; [intros [= <-]; auto|]. destruct (step s e) as [s1|] eqn:E; [|discriminate]. intros H.
  assert (Hs : s_answers s1 = s_answers s /\ s_ending s1 = s_ending s).
  { destruct e as [i| | | |i|i f]; cbn [AaModel.step] in E.
    - destruct (s_closed s); [discriminate|]. injection E as <-. auto.
    - injection E as <-. auto.
    - injection E as <-. auto.
    - destruct (s_ending s); congruence.
    - destruct (nth_error _ _) as [[? ? [|? ?] [|]]|]; try discriminate. injection E as <-. auto.
    - destruct (nth_error _ _) as [[? ? ? [[? ?]|]]|]; try discriminate. injection E as <-. auto. }
  destruct Hs as [H1 H2]. destruct (IH s1 s') as [H3 H4]; [congruence|exact H|]. split; congruence.
Qed.
End Turns.
