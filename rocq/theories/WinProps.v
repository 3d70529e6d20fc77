(* Properties C22-C24, C57-C59: windowed aggregation. *)
From Verif Require Import Base MapLib WinModel WinSpec WinProofs WinRunProofs WinGroupProofs WinTopProofs.
From Coq Require Import ZArith Lia Permutation Sorted.
Local Open Scope Z_scope.

Section Any.
(* any keys, items, aggregator and window settings *)
Context {K I A V : Type} (keqb : K -> K -> bool) (key_of : I -> K) (ts_of : I -> Z).
Context (keqb_spec : forall a b, reflect (a = b) (keqb a b)).
Context (init : A) (push : A -> I -> A) (finish : A -> V) (dur late : Z).
(* the first n answers an adaptor over this source gives *)
Local Notation run n src := (polls keqb key_of ts_of init push finish dur late n (adaptor_new src)).
Local Notation result l := (finish (fold_left push l init)).

(* ---- C22 ---- *)
Theorem C22_exactly_once : forall src n, ~ In Crash (run n src) -> In (Ready None) (run n src) ->
  exists contents : list (window * list I),
    windows_of (run n src) = map (fun c => (fst c, result (snd c))) contents /\
    Permutation (concat (map snd contents) ++ lates_of (run n src)) (items src).
Proof.
  intros src n Hc He. destruct (ended keqb key_of ts_of keqb_spec init push finish dur late src n Hc He) as (out & H1 & H2 & H3).
  exists (lefts out). split; [exact H2|]. rewrite H3. eapply conservation; eassumption.
Qed.
(* and the end does come, unless the calendar runs out; after it nothing more *)
Theorem C22_reaches_the_end : forall src, exists n, In (Ready None) (run n src) \/ In Crash (run n src).
Proof. intros src. apply polls_finish. exact keqb_spec. Qed.

(* ---- C23 ---- *)
Theorem C23_window_emitted_once : 0 < dur -> 0 <= late -> forall src n, ~ In Crash (run n src) -> In (Ready None) (run n src) ->
  exists ids : list (K * Z),
    windows_of (run n src) = map (fun i => ((snd i, snd i + dur), result (group keqb key_of ts_of late (items src) (fst i) (snd i)))) ids /\
    NoDup ids /\
    (* windows of one key come out oldest first *)
    (forall k, StronglySorted Z.lt (map snd (filter (fun i => keqb (fst i) k) ids))).
Proof.
  intros Hd Hl src n Hc He. destruct (ended keqb key_of ts_of keqb_spec init push finish dur late src n Hc He) as (out & H1 & H2 & H3).
  destruct (final keqb key_of ts_of keqb_spec dur late Hd Hl _ _ H1) as (_ & g & G1 & G2 & G3). exists g. split; [|split; [|exact G3]].
  - rewrite H2, G1. unfold lift_o. rewrite map_map. apply map_ext_in. intros [k s] Hg. unfold report. cbn [fst snd].
    rewrite wgroup_group; [reflexivity|]. apply G2 in Hg. eapply wgroup_minute. exact Hg.
  - clear -G3 keqb_spec. induction g as [|[k s] g IH]; constructor.
    + intros Hx. specialize (G3 k). unfold starts in G3. cbn [filter fst] in G3. destruct (keqb_spec k k); [|congruence]. cbn [map snd] in G3.
      inversion G3 as [|? ? _ Hf]; subst. rewrite Forall_forall in Hf. assert (Hs : s < s); [apply Hf|lia].
      apply in_map_iff. exists (k, s). split; [reflexivity|]. apply filter_In. split; [exact Hx|]. cbn. destruct (keqb_spec k k); congruence.
    + apply IH. intros k'. specialize (G3 k'). unfold starts in *. cbn [filter fst] in G3. destruct (keqb k k'); [|exact G3]. inversion G3; assumption.
Qed.

(* ---- C24 ---- *)
(* Missing: window durations other than one minute (refuted below). *)
Theorem C24_window_bounds_partial : dur = minute -> 0 <= late -> forall src n, ~ In Crash (run n src) -> In (Ready None) (run n src) ->
  exists contents : list (K * window * list I),
    windows_of (run n src) = map (fun c => (snd (fst c), result (snd c))) contents /\
    (forall k b e l, In (k, (b, e), l) contents -> Forall (fun x => key_of x = k /\ b <= ts_of x < e) l /\ l <> []) /\
    (forall l1 c l2 c' l3, contents = l1 ++ c :: l2 ++ c' :: l3 -> fst (fst c) = fst (fst c') ->
       snd (snd (fst c)) <= fst (snd (fst c'))).
Proof.
  intros Hd Hl src n Hc He. destruct (ended keqb key_of ts_of keqb_spec init push finish dur late src n Hc He) as (out & H1 & H2 & H3).
  assert (Hd0 : 0 < dur) by (rewrite Hd; reflexivity).
  destruct (final keqb key_of ts_of keqb_spec dur late Hd0 Hl _ _ H1) as (_ & g & G1 & G2 & G3).
  exists (map (fun i => (fst i, (snd i, snd i + dur), wgroup keqb key_of ts_of late (items src) (fst i) (snd i))) g).
  split; [|split].
  - rewrite H2, G1. unfold lift_o. rewrite !map_map. apply map_ext. intros [k s]. reflexivity.
  - intros k b e l Hin. apply in_map_iff in Hin as ([k1 s1] & Hx & Hg). cbn [fst snd] in Hx. injection Hx as -> -> <- <-.
    apply G2 in Hg. split; [|exact Hg]. apply Forall_forall. intros x Hx. unfold wgroup in Hx. apply filter_In in Hx as [_ Hx].
    apply andb_prop in Hx as [Hx1 Hx2]. destruct (keqb_spec (key_of x) k); [|discriminate]. split; [assumption|]. apply Z.eqb_eq in Hx2.
    rewrite Hd. apply (ws_iff (ts_of x) b); [eapply wgroup_minute; exact Hg|exact Hx2].
  - intros l1 c l2 c' l3 Heq Hk. apply map_eq_app in Heq as (g1 & g' & -> & <- & Heq). destruct g' as [|[k s] g']; [discriminate|]. cbn [map] in Heq.
    injection Heq as <- Heq. apply map_eq_app in Heq as (g2 & g'' & -> & <- & Heq). destruct g'' as [|[k' s'] g'']; [discriminate|]. cbn [map] in Heq.
    injection Heq as <- _. cbn [fst snd] in *. subst k'. specialize (G3 k). unfold starts in G3. rewrite filter_app, map_app in G3.
    assert (Hss : s < s').
    { clear -G3 keqb_spec. induction (map snd (filter (fun p => keqb (fst p) k) g1)) as [|z l IH].
      - cbn [app filter fst] in G3. destruct (keqb_spec k k); [|congruence]. cbn [map snd] in G3. inversion G3 as [|? ? _ Hf]; subst.
        rewrite Forall_forall in Hf. apply Hf. rewrite filter_app, map_app. apply in_or_app. right. cbn [filter fst]. destruct (keqb_spec k k); [left; reflexivity|congruence].
      - apply IH. inversion G3; assumption. }
    assert (M1 : minute_start s). { eapply wgroup_minute. apply G2. apply in_or_app. right. left. reflexivity. }
    assert (M2 : minute_start s'). { eapply wgroup_minute. apply G2. apply in_or_app. right. right. apply in_or_app. right. left. reflexivity. }
    destruct M1 as [a ->]. destruct M2 as [b ->]. rewrite Hd. assert (Hab : a < b) by (pose proof minute_pos; nia).
    replace (a * minute + minute) with ((a + 1) * minute) by ring. apply Z.mul_le_mono_nonneg_r; [pose proof minute_pos; lia|lia].
Qed.

(* ---- C57 ---- *)
(* an item is reported late exactly when it is more than the lateness behind
   an earlier item of its key; the windows hold exactly all other items, each
   window those of its key and minute, in arrival order *)
Theorem C57_late_items_and_contents : 0 < dur -> 0 <= late -> forall src n, ~ In Crash (run n src) -> In (Ready None) (run n src) ->
  lates_of (run n src) = late_items keqb key_of ts_of late (items src) /\
  exists ids : list (K * Z),
    windows_of (run n src) = map (fun i => ((snd i, snd i + dur), result (group keqb key_of ts_of late (items src) (fst i) (snd i)))) ids /\
    (forall k s, In (k, s) ids <-> minute_start s /\ group keqb key_of ts_of late (items src) k s <> []).
Proof.
  intros Hd Hl src n Hc He. destruct (ended keqb key_of ts_of keqb_spec init push finish dur late src n Hc He) as (out & H1 & H2 & H3).
  destruct (final keqb key_of ts_of keqb_spec dur late Hd Hl _ _ H1) as (L & g & G1 & G2 & G3). split; [congruence|]. exists g. split.
  - rewrite H2, G1. unfold lift_o. rewrite map_map. apply map_ext_in. intros [k s] Hg. unfold report. cbn [fst snd].
    rewrite wgroup_group; [reflexivity|]. apply G2 in Hg. eapply wgroup_minute. exact Hg.
  - intros k s. rewrite G2. split.
    + intros Hx. pose proof (wgroup_minute _ _ _ _ _ _ _ Hx) as Hm. split; [exact Hm|]. now rewrite wgroup_group.
    + intros [Hm Hx]. now rewrite <- wgroup_group.
Qed.

(* ---- C58 ---- *)
(* when the source has nothing to deliver for the moment, exactly the windows
   that are over are out, and all the late items *)
Theorem C58_windows_out_when_over : 0 < dur -> 0 <= late -> forall xs rest n ans,
  run n (map Some xs ++ None :: rest) = ans ++ [Pending] -> ~ In Pending ans -> ~ In Crash ans ->
  lates_of ans = late_items keqb key_of ts_of late xs /\
  exists ids : list (K * Z),
    windows_of ans = map (fun i => ((snd i, snd i + dur), result (group keqb key_of ts_of late xs (fst i) (snd i)))) ids /\
    NoDup ids /\
    (forall k s, In (k, s) ids <-> minute_start s /\ group keqb key_of ts_of late xs k s <> [] /\ over key_of ts_of late dur xs k s).
Proof.
  intros Hd Hl xs rest n ans Hp Hn Hc. destruct (waiting keqb key_of ts_of init push finish dur late xs rest n ans Hp Hn Hc) as (w' & e & l & H1 & H2 & H3).
  pose proof (winv_run keqb key_of ts_of keqb_spec dur late Hd Hl xs [] _ _ _ _ (winv_nil keqb key_of ts_of dur late) H1) as [I1 I2 I3 I4 I5 (g & G1 & G2 & G3)].
  cbn [app fst snd] in *. split; [congruence|]. exists g.
  assert (Hov : forall k s, minute_start s -> group keqb key_of ts_of late xs k s <> [] -> (~ above keqb key_of ts_of dur late xs k s <-> over key_of ts_of late dur xs k s)).
  { intros k s _ Hg. unfold above, over.
    assert (Htop : forall t, top keqb key_of ts_of xs k = Some t <-> newest key_of ts_of xs k t).
    { clear -keqb_spec. induction xs as [|x xs IH]; intros t; cbn [top].
      - split; [discriminate|]. intros [(x & [] & _) _].
      - destruct (keqb_spec (key_of x) k) as [Hk|Hk].
        + destruct (top keqb key_of ts_of xs k) as [t'|] eqn:Ht.
          * destruct (proj1 (IH t') eq_refl) as [(y & Y1 & Y2 & Y3) Y4]. split.
            -- intros Hx. injection Hx as <-. split.
               ++ destruct (Z.max_spec (ts_of x) t') as [[? ->]|[? ->]]; [exists y; repeat split; [right|..]; auto|exists x; repeat split; [left; reflexivity|exact Hk]].
               ++ intros z [<-|Hz] Hzk; [lia|]. specialize (Y4 z Hz Hzk). lia.
            -- intros [(z & Z1 & Z2 & Z3) Z4]. f_equal. pose proof (Z4 x (or_introl eq_refl) Hk). pose proof (Z4 y (or_intror Y1) Y2).
               destruct Z1 as [<-|Z1]; [lia|]. specialize (Y4 z Z1 Z2). lia.
          * split.
            -- intros Hx. injection Hx as <-. split; [exists x; repeat split; [left; reflexivity|exact Hk]|].
               intros z [<-|Hz] Hzk; [lia|]. exfalso. assert (Hno : forall u, ~ newest key_of ts_of xs k u) by (intros u Hu; apply IH in Hu; discriminate).
               clear -Hz Hzk Ht keqb_spec. revert Ht. induction xs as [|y ys IHy]; [destruct Hz|]. cbn [top]. destruct (keqb_spec (key_of y) k); [discriminate|].
               destruct Hz as [<-|Hz]; [congruence|auto].
            -- intros [(z & Z1 & Z2 & Z3) Z4]. f_equal. destruct Z1 as [<-|Z1]; [lia|]. exfalso. clear -Z1 Z2 Ht keqb_spec. revert Ht.
               induction xs as [|y ys IHy]; [destruct Z1|]. cbn [top]. destruct (keqb_spec (key_of y) k); [discriminate|]. destruct Z1 as [<-|Hz]; [congruence|auto].
        + rewrite IH. split; intros [(y & Y1 & Y2 & Y3) Y4].
          * split; [exists y; repeat split; [right|..]; auto|]. intros z [<-|Hz] Hzk; [congruence|auto].
          * destruct Y1 as [<-|Y1]; [congruence|]. split; [exists y; auto|]. intros z Hz Hzk. apply Y4; [right|]; auto. }
    destruct (top keqb key_of ts_of xs k) as [t|] eqn:Ht.
    - split.
      + intros Hx. exists t, (window_start (t - late)). split; [apply Htop; reflexivity|]. split; [apply ws_minute|].
        pose proof (ws_le (t - late)). pose proof (ws_lt (t - late)). lia.
      + intros (t' & m & T1 & T2 & T3 & T4). apply Htop in T1. injection T1 as <-. apply (ws_iff _ _ T2) in T3. rewrite T3. lia.
    - split; [tauto|]. intros (t' & m & T1 & _). apply Htop in T1. discriminate. }
  split; [|split].
  - rewrite H2, G1. unfold lift_o. rewrite map_map. apply map_ext_in. intros [k s] Hg. unfold report. cbn [fst snd].
    rewrite wgroup_group; [reflexivity|]. apply G2 in Hg as [Hg _]. eapply wgroup_minute. exact Hg.
  - clear -G3 keqb_spec. induction g as [|[k s] g IH]; constructor.
    + intros Hx. specialize (G3 k). unfold starts in G3. cbn [filter fst] in G3. destruct (keqb_spec k k); [|congruence]. cbn [map snd] in G3.
      inversion G3 as [|? ? _ Hf]; subst. rewrite Forall_forall in Hf. assert (Hs : s < s); [apply Hf|lia].
      apply in_map_iff. exists (k, s). split; [reflexivity|]. apply filter_In. split; [exact Hx|]. cbn. destruct (keqb_spec k k); congruence.
    + apply IH. intros k'. specialize (G3 k'). unfold starts in *. cbn [filter fst] in G3. destruct (keqb k k'); [|exact G3]. inversion G3; assumption.
  - intros k s. rewrite G2. split.
    + intros [Hx Ha]. pose proof (wgroup_minute _ _ _ _ _ _ _ Hx) as Hm. rewrite <- (wgroup_group keqb key_of ts_of late xs k s Hm) in Hx.
      split; [exact Hm|]. split; [exact Hx|]. apply Hov; auto.
    + intros (Hm & Hx & Ho). split; [now rewrite <- wgroup_group|]. apply Hov; auto.
Qed.

(* ---- C59 ---- *)
Theorem C59_never_panics_partial : 0 <= dur -> 0 <= late -> forall src n,
  Forall (fun x => time_min + late + dur + minute <= ts_of x <= time_max - dur) (items src) -> ~ In Crash (run n src).
Proof. intros Hd Hl src n H. eapply roomy_no_crash; eassumption. Qed.
End Any.
Print Assumptions C22_exactly_once.
Print Assumptions C22_reaches_the_end.
Print Assumptions C23_window_emitted_once.
Print Assumptions C24_window_bounds_partial.
Print Assumptions C57_late_items_and_contents.
Print Assumptions C58_windows_out_when_over.
Print Assumptions C59_never_panics_partial.

(* a concrete run: items are (key, seconds, value), values are added up *)
Definition sec : Z := 1000000000.
Definition item : Type := (bool * Z * N)%type.
Definition sum_run (dur late : Z) (n : nat) (src : list (option item)) :=
  polls Bool.eqb (fun x : item => fst (fst x)) (fun x => (snd (fst x) * sec)%Z) 0%N (fun a x => (a + snd x)%N) (fun a => a) (dur * sec) (late * sec) n (adaptor_new src).
Definition ex_src : list (option item) :=
  [Some (true, 10, 1%N); Some (false, 15, 2%N); None; Some (true, 70, 4%N); Some (true, 65, 8%N); Some (true, 3, 16%N); Some (true, 200, 32%N); None].
Example C22_nonvacuous : sum_run 60 10 9 ex_src =
  [Pending; Ready (Some (inl ((0, 60 * sec), 1%N))); Ready (Some (inr (true, 3, 16%N))); Ready (Some (inl ((60 * sec, 120 * sec), 12%N))); Pending;
   Ready (Some (inl ((180 * sec, 240 * sec), 32%N))); Ready (Some (inl ((0, 60 * sec), 2%N))); Ready None; Ready None].
Proof. vm_compute. reflexivity. Qed.

(* ---- C24, refuted ---- *)
(* five-minute windows overlap: the one starting at 0 ends at 300 s, the next
   one of the same key starts at 60 s *)
Theorem C24_long_windows_refuted : exists src n,
  In (Ready None) (sum_run 300 0 n src) /\ ~ In Crash (sum_run 300 0 n src) /\
  windows_of (sum_run 300 0 n src) = [((0, 300 * sec), 1%N); ((60 * sec, 360 * sec), 2%N)] /\ items src = [(true, 10, 1%N); (true, 70, 2%N)].
Proof.
  exists [Some (true, 10, 1%N); Some (true, 70, 2%N)], 3%nat.
  assert (H : sum_run 300 0 3 [Some (true, 10, 1%N); Some (true, 70, 2%N)]
    = [Ready (Some (inl ((0, 300 * sec), 1%N))); Ready (Some (inl ((60 * sec, 360 * sec), 2%N))); Ready None]) by (vm_compute; reflexivity).
  rewrite H. split; [right; right; left; reflexivity|]. split; [cbn; intuition discriminate|]. split; reflexivity.
Qed.
Print Assumptions C24_long_windows_refuted.
(* in a ten-second window an item is not inside the bounds *)
Theorem C24_short_windows_refuted : exists src n,
  windows_of (sum_run 10 0 n src) = [((0, 10 * sec), 1%N)] /\ items src = [(true, 30, 1%N)].
Proof. exists [Some (true, 30, 1%N)], 2%nat. split; vm_compute; reflexivity. Qed.
Print Assumptions C24_short_windows_refuted.
(* a lateness larger than the time since the calendar's first day *)
Theorem C59_huge_lateness_refuted : exists src, In Crash (sum_run 60 9000000000000 1 src) /\ items src = [(true, 10, 1%N)].
Proof. exists [Some (true, 10, 1%N)]. split; [left; vm_compute|]; reflexivity. Qed.
Print Assumptions C59_huge_lateness_refuted.
Example C59_nonvacuous : Forall (fun x : item => time_min + 10 * sec + 60 * sec + minute <= snd (fst x) * sec <= time_max - 60 * sec) (items ex_src).
Proof. repeat constructor; vm_compute; discriminate. Qed.
