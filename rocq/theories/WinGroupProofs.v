(* Which items every window holds, and when it is emitted. *)
From Verif Require Import Base MapLib WinModel WinSpec WinProofs WinRunProofs.
From Coq Require Import ZArith Lia Permutation Sorted ZifyBool.
Local Open Scope Z_scope.

Section G.
Context {K I : Type} (keqb : K -> K -> bool) (key_of : I -> K) (ts_of : I -> Z).
Hypothesis keqb_spec : forall a b, reflect (a = b) (keqb a b).
Context (dur late : Z).
Hypothesis dur_pos : 0 < dur.
Hypothesis late_nonneg : 0 <= late.
Local Notation process := (process_item keqb key_of ts_of [] snoc (fun l => l) dur late).
Local Notation wst := (wstate (K := K) (A := list I)).
Local Notation lrun := (lrun keqb key_of ts_of dur late).
Local Notation is_late := (is_late keqb key_of ts_of late).
Local Notation judge := (judge keqb key_of ts_of late).
Local Notation late_items := (late_items keqb key_of ts_of late).
Local Notation on_time := (on_time keqb key_of ts_of late).
Local Notation group := (group keqb key_of ts_of late).

Lemma judge_snoc xs x : forall seen, judge seen (xs ++ [x]) = judge seen xs ++ [(x, is_late (seen ++ xs) x)].
Proof.
  induction xs as [|y xs IH]; intros seen; cbn; [now rewrite app_nil_r|]. rewrite IH, <- app_assoc. reflexivity.
Qed.
Lemma late_snoc xs x : late_items (xs ++ [x]) = late_items xs ++ (if is_late xs x then [x] else []).
Proof.
  unfold WinSpec.late_items. rewrite judge_snoc, filter_app, map_app. cbn [app filter snd]. now destruct (is_late xs x).
Qed.
Lemma on_time_snoc xs x : on_time (xs ++ [x]) = on_time xs ++ (if is_late xs x then [] else [x]).
Proof.
  unfold WinSpec.on_time. rewrite judge_snoc, filter_app, map_app. cbn [app filter snd]. now destruct (is_late xs x).
Qed.
Definition wgroup (xs : list I) (k : K) (s : Z) : list I :=
  filter (fun x => keqb (key_of x) k && (window_start (ts_of x) =? s)) (on_time xs).
Lemma wgroup_group xs k s : minute_start s -> group xs k s = wgroup xs k s.
Proof using.
  clear keqb_spec. intros Hs. unfold WinSpec.group, wgroup. apply filter_ext. intros x. pose proof (ws_iff (ts_of x) s Hs). destruct (keqb _ _); cbn [andb]; [|reflexivity]. lia.
Qed.
Lemma wgroup_minute xs k s : wgroup xs k s <> [] -> minute_start s.
Proof.
  unfold wgroup. intros H. destruct (filter _ _) as [|x l] eqn:Hf; [congruence|].
  assert (Hx : In x (x :: l)) by (left; reflexivity). rewrite <- Hf in Hx. apply filter_In in Hx as [_ Hx].
  apply andb_true_iff in Hx as [_ Hx]. apply Z.eqb_eq in Hx. subst. apply ws_minute.
Qed.
Lemma wgroup_late xs x k s : is_late xs x = true -> wgroup (xs ++ [x]) k s = wgroup xs k s.
Proof. intros H. unfold wgroup. rewrite on_time_snoc, H, app_nil_r. reflexivity. Qed.
Lemma wgroup_new xs x k s : is_late xs x = false ->
  wgroup (xs ++ [x]) k s = if keqb (key_of x) k && (window_start (ts_of x) =? s) then wgroup xs k s ++ [x] else wgroup xs k s.
Proof.
  intros H. unfold wgroup. rewrite on_time_snoc, H, filter_app. cbn [filter]. destruct (_ && _); [reflexivity|apply app_nil_r].
Qed.

(* the largest time seen for a key *)
Fixpoint top (xs : list I) (k : K) : option Z :=
  match xs with
  | [] => None
  | x :: r => if keqb (key_of x) k then Some (match top r k with Some t => Z.max (ts_of x) t | None => ts_of x end) else top r k
  end.
Lemma top_snoc xs x k : top (xs ++ [x]) k =
  if keqb (key_of x) k then Some (match top xs k with Some t => Z.max t (ts_of x) | None => ts_of x end) else top xs k.
Proof.
  induction xs as [|y xs IH]; cbn; [reflexivity|]. rewrite IH.
  destruct (keqb (key_of y) k), (keqb (key_of x) k), (top xs k); try reflexivity; f_equal; lia.
Qed.
Lemma top_late xs x : is_late xs x = match top xs (key_of x) with Some t => ts_of x <? t - late | None => false end.
Proof.
  unfold WinSpec.is_late. induction xs as [|y xs IH]; cbn; [reflexivity|]. rewrite IH.
  destruct (keqb (key_of y) (key_of x)); cbn [andb]; [|reflexivity]. destruct (top xs (key_of x)); lia.
Qed.

Definition above (xs : list I) (k : K) (s : Z) : Prop :=
  match top xs k with Some t => window_start (t - late) - dur < s | None => True end.
Definition wins (w : wst) (k : K) : list (Z * list I) := match mget keqb k (w_active w) with Some m => m | None => [] end.
Definition by_start (a b : Z * list I) : Prop := fst a < fst b.
Definition report (xs : list I) (g : K * Z) : window * list I := ((snd g, snd g + dur), wgroup xs (fst g) (snd g)).
Definition starts (k : K) (g : list (K * Z)) : list Z := map snd (filter (fun p => keqb (fst p) k) g).

Record winv (xs : list I) (a : acc) : Prop := mkInv {
  i_late : snd a = late_items xs;
  i_now : forall k, mget keqb k (w_now (fst (fst a))) = top xs k;
  i_nodup : NoDup (mkeys (w_active (fst (fst a))));
  i_sorted : forall k, StronglySorted by_start (wins (fst (fst a)) k);
  i_wins : forall k s l, In (s, l) (wins (fst (fst a)) k) <-> l = wgroup xs k s /\ l <> [] /\ above xs k s;
  i_out : exists g, snd (fst a) = map (report xs) g /\
            (forall k s, In (k, s) g <-> wgroup xs k s <> [] /\ ~ above xs k s) /\
            (forall k, StronglySorted Z.lt (starts k g)) }.

Lemma winv_nil : winv [] (wnew, [], []).
Proof.
  constructor; cbn [fst snd].
  - reflexivity.
  - reflexivity.
  - constructor.
  - intros k. constructor.
  - intros k s l. split; [intros []|]. intros (-> & H & _). exfalso. apply H. reflexivity.
  - exists []. split; [reflexivity|]. split; [|constructor]. intros k s. split; [intros []|]. intros [H _]. apply H. reflexivity.
Qed.

Lemma wpush_sorted s x m : StronglySorted by_start m -> StronglySorted by_start (wpush [] snoc s x m).
Proof.
  assert (Hin : forall m s' l', In (s', l') (wpush [] snoc s x m) -> s' = s \/ exists l2, In (s', l2) m).
  { clear m. induction m as [|[s1 l1] m IH]; cbn; intros s' l' H.
    - destruct H as [H|[]]. injection H as <- <-. auto.
    - destruct (s =? s1) eqn:He; [|destruct (s <? s1)].
      + destruct H as [H|H]; [injection H as <- <-; right; eexists; left; reflexivity|]. right. exists l'. right. exact H.
      + destruct H as [H|[H|H]]; [injection H as <- <-; auto| |]; right; eexists; [left; exact H|right; exact H].
      + destruct H as [H|H]; [right; eexists; left; exact H|]. destruct (IH _ _ H) as [->|[l2 H2]]; [auto|]. right. exists l2. right. exact H2. }
  induction 1 as [|[s1 l1] m H IH Ha]; cbn [wpush].
  - repeat constructor.
  - destruct (Z.eqb_spec s s1) as [->|He].
    + constructor; [exact H|]. apply Forall_forall. intros [s2 l2] Hx. rewrite Forall_forall in Ha. exact (Ha _ Hx).
    + destruct (Z.ltb_spec s s1) as [Hl|Hl].
      * constructor; [constructor; auto|]. constructor; [exact Hl|]. apply Forall_forall. intros [s2 l2] Hx. rewrite Forall_forall in Ha.
        specialize (Ha _ Hx). unfold by_start in *. cbn in *. lia.
      * constructor; [exact IH|]. apply Forall_forall. intros [s2 l2] Hx. unfold by_start. cbn. destruct (Hin m _ _ Hx) as [->|[l3 H3]]; [lia|].
        rewrite Forall_forall in Ha. exact (Ha _ H3).
Qed.
Lemma sorted_unique m s l l' : StronglySorted by_start m -> In (s, l) m -> In (s, l') m -> l = l'.
Proof.
  induction 1 as [|[s1 l1] m H IH Ha]; cbn; [intros []|]. rewrite Forall_forall in Ha. intros [H1|H1] [H2|H2].
  - congruence.
  - injection H1 as -> ->. specialize (Ha _ H2). unfold by_start in Ha. cbn in Ha. lia.
  - injection H2 as -> ->. specialize (Ha _ H1). unfold by_start in Ha. cbn in Ha. lia.
  - auto.
Qed.
Lemma wpush_in s x m s' l' : StronglySorted by_start m ->
  In (s', l') (wpush [] snoc s x m) <->
  (s' <> s /\ In (s', l') m) \/
  (s' = s /\ ((exists l, In (s, l) m /\ l' = l ++ [x]) \/ ((forall l, ~ In (s, l) m) /\ l' = [x]))).
Proof.
  induction 1 as [|[s1 l1] m H IH Ha]; cbn [wpush].
  - cbn. split.
    + intros [Hx|[]]. injection Hx as <- <-. right. split; [reflexivity|]. right. split; [auto|reflexivity].
    + intros [[_ []]|[-> [(l & [] & _)|[_ ->]]]]. left. reflexivity.
  - rewrite Forall_forall in Ha. destruct (Z.eqb_spec s s1) as [->|He]; [|destruct (Z.ltb_spec s s1) as [Hl|Hl]].
    + cbn [In]. split.
      * intros [Hx|Hx]; [injection Hx as <- <-; right; split; [reflexivity|left; eexists; split; [left; reflexivity|reflexivity]]|].
        left. split; [specialize (Ha _ Hx); unfold by_start in Ha; cbn in Ha; lia|right; exact Hx].
      * intros [[Hn [Hx|Hx]]|[-> [(l & [Hx|Hx] & ->)|[Hn ->]]]].
        -- congruence.
        -- right. exact Hx.
        -- left. injection Hx as <-. reflexivity.
        -- specialize (Ha _ Hx). unfold by_start in Ha. cbn in Ha. lia.
        -- exfalso. apply (Hn l1). left. reflexivity.
    + assert (Hno : forall l, ~ In (s, l) ((s1, l1) :: m)).
      { intros l [Hx|Hx]; [congruence|]. specialize (Ha _ Hx). unfold by_start in Ha. cbn in Ha. lia. }
      split.
      * intros [Hx|Hx]; [injection Hx as <- <-; right; split; [reflexivity|right; split; [exact Hno|reflexivity]]|].
        left. split; [|exact Hx]. intros ->. exact (Hno _ Hx).
      * intros [[Hn Hx]|[-> [(l & Hx & ->)|[_ ->]]]]; [right; exact Hx|exfalso; exact (Hno _ Hx)|left; reflexivity].
    + cbn [In]. rewrite IH. split.
      * intros [Hx|[[Hn Hx]|[-> [(l & Hx & ->)|[Hn ->]]]]].
        -- injection Hx as <- <-. left. split; [congruence|left; reflexivity].
        -- left. split; [exact Hn|right; exact Hx].
        -- right. split; [reflexivity|]. left. exists l. split; [right; exact Hx|reflexivity].
        -- right. split; [reflexivity|]. right. split; [|reflexivity]. intros l [Hx|Hx]; [congruence|exact (Hn _ Hx)].
      * intros [[Hn [Hx|Hx]]|[-> [(l & [Hx|Hx] & ->)|[Hn ->]]]].
        -- left. exact Hx.
        -- right. left. auto.
        -- congruence.
        -- right. right. split; [reflexivity|]. left. exists l. auto.
        -- right. right. split; [reflexivity|]. right. split; [|reflexivity]. intros l Hx. apply (Hn l). right. exact Hx.
Qed.

Lemma starts_app k a b : starts k (a ++ b) = starts k a ++ starts k b.
Proof. unfold starts. now rewrite filter_app, map_app. Qed.
Lemma starts_one k k0 (m : list (Z * list I)) : starts k (map (fun w => (k0, fst w)) m) = if keqb k0 k then map fst m else [].
Proof.
  unfold starts. induction m as [|w m IH]; cbn; [now destruct (keqb k0 k)|]. destruct (keqb k0 k) eqn:Hk; cbn; now rewrite IH.
Qed.
Lemma in_starts k s g : In s (starts k g) <-> In (k, s) g.
Proof.
  unfold starts. rewrite in_map_iff. split.
  - intros ([k' s'] & <- & H). apply filter_In in H as [H1 H2]. cbn in *. destruct (keqb_spec k' k); [subst; exact H1|discriminate].
  - intros H. exists (k, s). split; [reflexivity|]. apply filter_In. split; [exact H|]. cbn. destruct (keqb_spec k k); congruence.
Qed.

Lemma winv_step xs w e l x w' o l' : winv xs (w, e, l) -> process w x = Some (w', o, l') -> winv (xs ++ [x]) (w', e ++ o, l ++ l').
Proof.
  intros [H1 H2 H3 H4 H5 (g & G1 & G2 & G3)] Hp. cbn [fst snd] in *.
  pose proof (H2 (key_of x)) as Hk. pose proof (top_late xs x) as Htl.
  destruct (process_cases _ _ _ _ _ _ _ _ _ _ Hp) as [(L1 & -> & -> & ->)|(L1 & -> & Hw & Ho)]; rewrite Hk in *.
  - (* late *)
    destruct (top xs (key_of x)) as [t|] eqn:Ht; [|lia].
    assert (Hl : is_late xs x = true) by (rewrite Htl; lia). clear Htl.
    assert (Hts : forall k, top (xs ++ [x]) k = top xs k).
    { intros k. rewrite top_snoc. destruct (keqb_spec (key_of x) k) as [<-|]; [|reflexivity]. rewrite Ht. f_equal. lia. }
    assert (Hab : forall k s, above (xs ++ [x]) k s <-> above xs k s) by (intros; unfold above; rewrite Hts; tauto).
    constructor; cbn [fst snd w_now w_active].
    + rewrite late_snoc, Hl. now rewrite H1.
    + intros k. rewrite Hts, (mget_mset keqb keqb_spec). destruct (keqb_spec k (key_of x)) as [->|]; [congruence|apply H2].
    + exact H3.
    + exact H4.
    + intros k s l0. rewrite Hab, wgroup_late by exact Hl. apply H5.
    + exists g. rewrite app_nil_r. split; [|split; [|exact G3]].
      * rewrite G1. apply map_ext. intros [k s]. unfold report. cbn. now rewrite wgroup_late.
      * intros k s. rewrite Hab, wgroup_late by exact Hl. apply G2.
  - (* on time *)
    set (now := match top xs (key_of x) with Some t => t | None => ts_of x end) in *.
    set (now' := Z.max now (ts_of x)) in *.
    set (cut := window_start (now' - late) - dur) in *.
    set (s0 := window_start (ts_of x)) in *.
    assert (Hl : is_late xs x = false).
    { rewrite Htl. unfold now in L1. destruct (top xs (key_of x)) as [t|]; [|reflexivity]. lia. }
    assert (Htx : top (xs ++ [x]) (key_of x) = Some now').
    { rewrite top_snoc. destruct (keqb_spec (key_of x) (key_of x)) as [_|Hc]; [|congruence]. unfold now', now.
      destruct (top xs (key_of x)); f_equal; lia. }
    assert (Hto : forall k, k <> key_of x -> top (xs ++ [x]) k = top xs k).
    { intros k Hn. rewrite top_snoc. destruct (keqb_spec (key_of x) k); congruence. }
    assert (Hs0 : cut < s0).
    { unfold cut, s0. pose proof (ws_mono (now' - late) (ts_of x) ltac:(unfold now'; lia)). lia. }
    assert (Hcut : match top xs (key_of x) with Some t => window_start (t - late) - dur <= cut | None => True end).
    { destruct (top xs (key_of x)) as [t|] eqn:Ht; [|exact Logic.I]. unfold cut. pose proof (ws_mono (t - late) (now' - late) ltac:(unfold now', now; lia)). lia. }
    assert (Hgo : forall k s, (k <> key_of x \/ s <> s0) -> wgroup (xs ++ [x]) k s = wgroup xs k s).
    { intros k s Hn. rewrite wgroup_new by exact Hl. destruct (keqb_spec (key_of x) k); [|reflexivity]. fold s0. destruct (Z.eqb_spec s0 s); [|reflexivity].
      destruct Hn; congruence. }
    assert (Hgx : wgroup (xs ++ [x]) (key_of x) s0 = wgroup xs (key_of x) s0 ++ [x]).
    { rewrite wgroup_new by exact Hl. destruct (keqb_spec (key_of x) (key_of x)); [|congruence]. fold s0. now rewrite Z.eqb_refl. }
    assert (Habx : forall s, above (xs ++ [x]) (key_of x) s <-> cut < s).
    { intros s. unfold above. rewrite Htx. reflexivity. }
    assert (Habo : forall k s, k <> key_of x -> above (xs ++ [x]) k s <-> above xs k s).
    { intros k s Hn. unfold above. rewrite Hto by exact Hn. tauto. }
    assert (Hmono : forall s, cut < s -> above xs (key_of x) s).
    { intros s Hs. unfold above. destruct (top xs (key_of x)); [lia|exact Logic.I]. }
    fold (wins w (key_of x)) in Hw, Ho.
    set (ws := wpush [] snoc s0 x (wins w (key_of x))) in *.
    assert (Hws : StronglySorted by_start ws) by (apply wpush_sorted; apply H4).
    assert (Hin : forall s l0, In (s, l0) ws <-> l0 = wgroup (xs ++ [x]) (key_of x) s /\ l0 <> [] /\ above xs (key_of x) s).
    { intros s l0. unfold ws. rewrite wpush_in by apply H4. split.
      - intros [[Hn Hx]|[-> [(l1 & Hx & ->)|[Hn ->]]]].
        + rewrite Hgo by auto. apply H5. exact Hx.
        + apply H5 in Hx as (-> & _ & Hx). rewrite Hgx. split; [reflexivity|]. split; [|exact Hx]. intros Hc. apply app_eq_nil in Hc as [_ Hc]. discriminate.
        + rewrite Hgx. destruct (wgroup xs (key_of x) s0) as [|y r] eqn:Hg.
          * split; [reflexivity|]. split; [discriminate|apply Hmono; exact Hs0].
          * exfalso. apply (Hn (y :: r)). apply H5. rewrite Hg. split; [reflexivity|]. split; [discriminate|apply Hmono; exact Hs0].
      - intros (-> & Hx & Ha). destruct (Z.eq_dec s s0) as [->|Hn].
        + right. split; [reflexivity|]. rewrite Hgx. destruct (wgroup xs (key_of x) s0) as [|y r] eqn:Hg.
          * right. split; [|reflexivity]. intros l1 Hc. apply H5 in Hc as (-> & Hc & _). apply Hc. exact Hg.
          * left. exists (y :: r). split; [|reflexivity]. apply H5. rewrite Hg. split; [reflexivity|]. split; [discriminate|exact Ha].
        + left. split; [exact Hn|]. rewrite Hgo in * by auto. apply H5. auto. }
    constructor; cbn [fst snd].
    + rewrite late_snoc, Hl. now rewrite H1.
    + intros k. rewrite Hw. cbn [w_now]. rewrite (mget_mset keqb keqb_spec). destruct (keqb_spec k (key_of x)) as [->|Hn]; [congruence|].
      rewrite Hto by exact Hn. apply H2.
    + rewrite Hw. cbn [w_active]. apply (NoDup_mset keqb keqb_spec). exact H3.
    + intros k. unfold wins. rewrite Hw. cbn [w_active]. rewrite (mget_mset keqb keqb_spec).
      destruct (keqb_spec k (key_of x)) as [->|Hn]; [apply SS_filter; exact Hws|apply H4].
    + intros k s l0. unfold wins. rewrite Hw. cbn [w_active]. rewrite (mget_mset keqb keqb_spec).
      destruct (keqb_spec k (key_of x)) as [->|Hn].
      * rewrite filter_In, Hin, Habx. cbn [fst]. split.
        -- intros ((-> & Hx & Ha) & Hc). split; [reflexivity|]. split; [exact Hx|lia].
        -- intros (-> & Hx & Ha). split; [|lia]. split; [reflexivity|]. split; [exact Hx|apply Hmono; exact Ha].
      * rewrite Hgo, Habo by auto. apply H5.
    + exists (g ++ map (fun w => (key_of x, fst w)) (filter (fun w => fst w <=? cut) ws)). split; [|split].
      * rewrite map_app, G1, Ho. f_equal.
        -- apply map_ext_in. intros [k s] Hg. unfold report. cbn [fst snd]. rewrite Hgo; [reflexivity|].
           destruct (keqb_spec k (key_of x)) as [->|]; [|auto]. right. intros ->. apply G2 in Hg as [_ Hg]. apply Hg. apply Hmono. exact Hs0.
        -- rewrite map_map. apply map_ext_in. intros [s l0] Hf. apply filter_In in Hf as [Hf _]. apply Hin in Hf as (-> & _). reflexivity.
      * intros k s. rewrite in_app_iff, in_map_iff. split.
        -- intros [Hg|([s1 l1] & He & Hf)].
           ++ pose proof Hg as Hg'. apply G2 in Hg as [Hg Ha]. destruct (keqb_spec k (key_of x)) as [->|Hn].
              ** assert (Hle : s <= cut). { destruct (Z_lt_le_dec cut s) as [Hc|Hc]; [exfalso; apply Ha, Hmono, Hc|exact Hc]. }
                 rewrite Hgo by (right; lia). rewrite Habx. split; [exact Hg|lia].
              ** rewrite Hgo, Habo by auto. auto.
           ++ injection He as <- <-. cbn [fst]. apply filter_In in Hf as [Hf Hc]. cbn [fst] in Hc. apply Hin in Hf as (-> & Hf & _).
              rewrite Habx. split; [exact Hf|lia].
        -- intros [Hg Ha]. destruct (keqb_spec k (key_of x)) as [->|Hn].
           ++ rewrite Habx in Ha. assert (Hle : s <= cut) by lia. rewrite Hgo in Hg by (right; lia).
              assert (Hd : above xs (key_of x) s \/ ~ above xs (key_of x) s).
              { unfold above. destruct (top xs (key_of x)); [lia|auto]. }
              destruct Hd as [Hd|Hd]; [right|left; apply G2; auto].
              exists (s, wgroup xs (key_of x) s). split; [reflexivity|]. apply filter_In. split; [|cbn; lia]. apply Hin. rewrite Hgo by (right; lia). auto.
           ++ left. apply G2. rewrite Hgo, Habo in * by auto. auto.
      * intros k. rewrite starts_app, starts_one. destruct (keqb_spec (key_of x) k) as [<-|Hn]; [|rewrite app_nil_r; apply G3].
        apply SS_app; [apply G3| |].
        -- apply SS_map. apply SS_filter. exact Hws.
        -- intros a b Ha Hb. apply in_starts in Ha. apply G2 in Ha as [_ Ha]. apply in_map_iff in Hb as ([s1 l1] & <- & Hb).
           apply filter_In in Hb as [Hb _]. apply Hin in Hb as (_ & _ & Hb). cbn [fst]. unfold above in *.
           destruct (top xs (key_of x)); [lia|]. exfalso. apply Ha. exact Logic.I.
Qed.
Lemma winv_run ys : forall xs w e l r, winv xs (w, e, l) -> lrun ys (w, e, l) = Some r -> winv (xs ++ ys) r.
Proof.
  induction ys as [|y ys IH]; intros xs w e l r H Hr; cbn [WinRunProofs.lrun] in Hr.
  - injection Hr as <-. now rewrite app_nil_r.
  - destruct (process w y) as [[[w' o] l']|] eqn:Hp; [|discriminate].
    specialize (IH (xs ++ [y]) w' (e ++ o) (l ++ l') r (winv_step _ _ _ _ _ _ _ _ H Hp) Hr). rewrite <- app_assoc in IH. exact IH.
Qed.

(* the flush at the end *)
Lemma wins_in w k s l : NoDup (mkeys (w_active w)) ->
  (In (s, l) (wins w k) <-> exists m, In (k, m) (w_active w) /\ In (s, l) m).
Proof.
  intros Hn. unfold wins. split.
  - destruct (mget keqb k (w_active w)) as [m|] eqn:Hm; [|intros []]. intros H. exists m. split; [apply (mget_In keqb keqb_spec); exact Hm|exact H].
  - intros (m & Hm & H). rewrite (In_mget keqb keqb_spec k m _ Hn Hm). exact H.
Qed.
Lemma final xs out : to_come keqb key_of ts_of dur late [] snoc (fun l => l) xs wnew = Some out ->
  rights out = late_items xs /\
  exists g, lefts out = map (report xs) g /\ (forall k s, In (k, s) g <-> wgroup xs k s <> []) /\
    (forall k, StronglySorted Z.lt (starts k g)).
Proof.
  intros H. destruct (to_come_lrun _ _ _ _ _ xs wnew [] [] out H) as (w' & e & l & H1 & fl & H2 & H3 & H4). cbn [app] in *.
  pose proof (winv_run xs [] _ _ _ _ winv_nil H1) as [I1 I2 I3 I4 I5 (g & G1 & G2 & G3)]. cbn [app fst snd] in *.
  split; [congruence|].
  unfold wflush in H2. destruct (wresults _ _ _) as [r|] eqn:Hr; [|discriminate]. injection H2 as ->. apply wresults_ok in Hr. subst fl.
  set (act := flat_map (fun kv => map (fun w => (fst kv, fst w)) (snd kv)) (w_active w')).
  assert (Hact : forall k s, In (k, s) act <-> exists l0, In (s, l0) (wins w' k)).
  { intros k s. unfold act. rewrite in_flat_map. split.
    - intros ([k1 m] & Hm & Hx). apply in_map_iff in Hx as ([s1 l1] & He & Hx). cbn in *. injection He as -> ->.
      exists l1. apply (wins_in _ _ _ _ I3). exists m. auto.
    - intros (l0 & Hx). apply (wins_in _ _ _ _ I3) in Hx as (m & Hm & Hx). exists (k, m). split; [exact Hm|]. apply in_map_iff. exists (s, l0). auto. }
  exists (g ++ act). split; [|split].
  - rewrite H3, map_app, G1. f_equal. unfold act. clear -I3 I5 keqb_spec.
    assert (Hall : forall k m s l0, In (k, m) (w_active w') -> In (s, l0) m -> l0 = wgroup xs k s).
    { intros k m s l0 Hm Hl. apply (I5 k s l0). apply (wins_in _ _ _ _ I3). exists m. auto. }
    revert Hall. clear. induction (w_active w') as [|[k m] a IH]; intros Hall; cbn; [reflexivity|].
    rewrite !map_app, IH by (intros; eapply Hall; [right|]; eauto). f_equal. rewrite map_map. apply map_ext_in. intros [s l0] Hl.
    unfold report. cbn [fst snd]. rewrite (Hall k m s l0) by (auto; left; reflexivity). reflexivity.
  - intros k s. rewrite in_app_iff, G2, Hact. split.
    + intros [[Hx _]|(l0 & Hx)]; [exact Hx|]. apply I5 in Hx as (-> & Hx & _). exact Hx.
    + intros Hx. assert (Hd : above xs k s \/ ~ above xs k s) by (unfold above; destruct (top xs k); [lia|auto]).
      destruct Hd as [Hd|Hd]; [right; exists (wgroup xs k s); apply I5; auto|left; auto].
  - intros k. rewrite starts_app.
    assert (Hst : starts k act = map fst (wins w' k)).
    { unfold act, wins. clear -I3 keqb_spec. induction (w_active w') as [|[k1 m] a IH]; cbn [flat_map mget fst snd]; [reflexivity|].
      inversion I3 as [|? ? Hx Hn]; subst. rewrite starts_app, starts_one. destruct (keqb_spec k1 k) as [->|Hk].
      - rewrite (eqb_refl' keqb keqb_spec). rewrite IH by exact Hn. replace (mget keqb k a) with (@None (list (Z * list I))); [apply app_nil_r|].
        symmetry. apply (mget_None_notin keqb keqb_spec). exact Hx.
      - rewrite (eqb_neq' keqb keqb_spec k k1) by congruence. exact (IH Hn). }
    rewrite Hst. apply SS_app; [apply G3|apply SS_map, I4|].
    intros a b Ha Hb. apply in_starts, G2 in Ha as [_ Ha]. apply in_map_iff in Hb as ([s1 l1] & <- & Hb). apply I5 in Hb as (_ & _ & Hb).
    cbn [fst]. unfold above in *. destruct (top xs k); [lia|]. exfalso. apply Ha. exact Logic.I.
Qed.
End G.
