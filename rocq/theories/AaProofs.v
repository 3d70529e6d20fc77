(* Proofs for the flow aggregation service: the window stream fed piece by
   piece. *)
From Verif Require Import Base MapLib WinModel WinSpec WinProofs WinRunProofs WinGroupProofs WinTopProofs.
From Coq Require Import ZArith Lia Permutation Sorted.
Local Open Scope Z_scope.

Section Feed.
Context {K I A V : Type} (keqb : K -> K -> bool) (key_of : I -> K) (ts_of : I -> Z).
Hypothesis keqb_spec : forall a b, reflect (a = b) (keqb a b).
Context (init : A) (push : A -> I -> A) (finish : A -> V) (dur late : Z).
Local Notation process := (process_item keqb key_of ts_of init push finish dur late).
Local Notation poll_src := (poll_src keqb key_of ts_of init push finish dur late).
Local Notation wst := (wstate (K := K) (A := A)).
Local Notation ans := (answer (I := I) (V := V)).

Fixpoint feed (xs : list I) (a : wst * list (window * V) * list I) : option (wst * list (window * V) * list I) :=
  match xs with
  | [] => Some a
  | x :: r => match a with (w, e, l) =>
      match process w x with
      | None => None
      | Some (w', o, l') => feed r (w', e ++ o, l ++ l')
      end end
  end.
Lemma feed_app xs ys a : feed (xs ++ ys) a = match feed xs a with Some a' => feed ys a' | None => None end.
Proof. revert a. induction xs as [|x xs IH]; intros [[w e] l]; cbn; [reflexivity|]. destruct (process w x) as [[[w' o] l']|]; auto. Qed.
Lemma feed_frame xs : forall w e l e0 l0 w' e' l', feed xs (w, e, l) = Some (w', e', l') -> feed xs (w, e0 ++ e, l0 ++ l) = Some (w', e0 ++ e', l0 ++ l').
Proof.
  induction xs as [|x xs IH]; intros w e l e0 l0 w' e' l'; cbn [feed]; [intros [= <- <- <-]; reflexivity|].
  destruct (process w x) as [[[w1 o] l1]|]; [|discriminate]. intros H. rewrite <- !app_assoc. now apply IH.
Qed.

Definition somes (src : list (option I)) : list I := flat_map (fun o => match o with Some x => [x] | None => [] end) src.
Lemma somes_map q : somes (map Some q) = q.
Proof. unfold somes. induction q; cbn; congruence. Qed.
Lemma somes_open q : somes (map Some q ++ [None]) = q.
Proof. unfold somes. rewrite flat_map_app. fold (somes (map Some q)). rewrite somes_map. cbn. apply app_nil_r. Qed.

(* the end of the source: waiting, or over *)
Lemma poll_feed tl q : (tl = [None] \/ tl = []) -> forall w b l a' o, poll_src (map Some q ++ tl) w b l = (a', o) ->
  match o with
  | Crash => True
  | Pending => tl = [None] /\ somes (a_src a') = [] /\ a_buf a' = [] /\ a_late a' = [] /\ feed q (w, b, l) = Some (a_w a', [], [])
  | Ready y =>
      (exists d q', q = d ++ q' /\ y <> None /\ somes (a_src a') = q' /\
        feed d (w, b, l) = Some (a_w a', windows_of [o] ++ a_buf a', lates_of [o] ++ a_late a')) \/
      (tl = [] /\ a_src a' = [] /\ a_w a' = wnew /\ a_late a' = [] /\ lates_of [o] = [] /\ (y = None -> a_buf a' = []) /\
       exists w1 fl, feed q (w, b, l) = Some (w1, [], []) /\ wflush finish dur w1 = Some (wnew, fl) /\ fl = windows_of [o] ++ a_buf a')
  end.
Proof.
  intros Htl. induction q as [|x q IH]; intros w b l a' o H; cbn [map app] in H.
  - assert (Hgot : forall y a1, get_next (mkA tl w b l) = Some (a1, y) -> (a', o) = (a1, Ready (Some y)) ->
      exists d q', [] = d ++ q' /\ Some y <> None /\ somes (a_src a') = q' /\ feed d (w, b, l) = Some (a_w a', windows_of [o] ++ a_buf a', lates_of [o] ++ a_late a')).
    { intros y a1 Hg Ho. injection Ho as -> ->. exists [], []. split; [reflexivity|]. split; [discriminate|].
      unfold get_next in Hg. cbn [a_late a_buf a_src a_w] in Hg. destruct l as [|z l]; [destruct b as [|v b]; [discriminate|]|]; injection Hg as <- <-; cbn; (split; [destruct Htl; subst; reflexivity|reflexivity]). }
    destruct Htl as [-> | ->]; cbn [WinModel.poll_src] in H.
    + destruct (get_next _) as [[a1 y]|] eqn:Hg.
      * injection H as <- <-. left. apply (Hgot y a1 eq_refl eq_refl).
      * injection H as <- <-. unfold get_next in Hg. cbn [a_late a_buf] in Hg. destruct l; [|discriminate]. destruct b; [|discriminate]. cbn. auto.
    + destruct (get_next _) as [[a1 y]|] eqn:Hg.
      * injection H as <- <-. left. apply (Hgot y a1 eq_refl eq_refl).
      * unfold get_next in Hg. cbn [a_late a_buf] in Hg. destruct l; [|discriminate]. destruct b; [|discriminate].
        destruct (wflush finish dur w) as [[w1 fl]|] eqn:Hf; [|injection H as <- <-; exact Logic.I].
        assert (w1 = wnew) by (unfold wflush in Hf; destruct (wresults _ _ _); inversion Hf; reflexivity). subst w1.
        cbn [app] in H. unfold get_next in H. cbn [a_late a_buf a_src a_w] in H. destruct fl as [|v fl]; injection H as <- <-.
        -- right. cbn. repeat split; auto. exists w, []. auto.
        -- right. cbn. repeat split; auto; [discriminate|]. exists w, (v :: fl). auto.
  - cbn [WinModel.poll_src] in H. destruct (get_next _) as [[a1 y]|] eqn:Hg.
    + injection H as <- <-. left. exists [], (x :: q). split; [reflexivity|]. split; [discriminate|].
      unfold get_next in Hg. cbn [a_late a_buf a_src a_w] in Hg.
      assert (Hs : somes (map Some (x :: q) ++ tl) = x :: q). { destruct Htl as [-> | ->]; [apply somes_open|rewrite app_nil_r; apply somes_map]. }
      destruct l as [|z l]; [destruct b as [|v b]; [discriminate|]|]; injection Hg as <- <-; cbn; (split; [exact Hs|reflexivity]).
    + unfold get_next in Hg. cbn [a_late a_buf] in Hg. destruct l; [|discriminate]. destruct b; [|discriminate].
      cbn [feed]. destruct (process w x) as [[[w' out] l']|] eqn:Hp; [|injection H as <- <-; exact Logic.I].
      specialize (IH _ _ _ _ _ H). destruct o as [y| |]; auto.
      destruct IH as [(d & q' & -> & Hy & Hs & Hf)|IH]; [left|right; exact IH].
      exists (x :: d), q'. cbn [app feed]. rewrite Hp. auto.
Qed.
(* a poll only panics when processing or flushing does *)
Lemma poll_crash tl q : (tl = [None] \/ tl = []) -> forall w b l a', poll_src (map Some q ++ tl) w b l = (a', Crash) ->
  (exists d x q' w' e l', q = d ++ x :: q' /\ feed d (w, b, l) = Some (w', e, l') /\ process w' x = None) \/
  (tl = [] /\ exists w' e l', feed q (w, b, l) = Some (w', e, l') /\ wflush finish dur w' = None).
Proof.
  intros Htl. induction q as [|x q IH]; intros w b l a' H; cbn [map app] in H.
  - destruct Htl as [-> | ->]; cbn [WinModel.poll_src] in H.
    { destruct (get_next (mkA [None] w b l)) as [[a1 y]|] eqn:Hg; discriminate H. }
    destruct (get_next (mkA [] w b l)) as [[a1 y]|] eqn:Hg; [discriminate H|].
    right. split; [reflexivity|]. exists w, b, l. split; [reflexivity|]. destruct b; [|unfold get_next in Hg; cbn in Hg; destruct l; discriminate].
    destruct (wflush finish dur w) as [[w1 fl]|]; [|reflexivity]. destruct (get_next (mkA [] w1 _ l)) as [[? ?]|]; discriminate H.
  - cbn [WinModel.poll_src] in H. destruct (get_next _) as [[a1 y]|] eqn:Hg; [discriminate|]. cbn [feed].
    destruct (process w x) as [[[w' out] l']|] eqn:Hp.
    + destruct (IH _ _ _ _ H) as [(d & x1 & q' & w1 & e & l1 & -> & Hf & Hn)|(-> & w1 & e & l1 & Hf & Hn)].
      * left. exists (x :: d), x1, q', w1, e, l1. cbn [app feed]. rewrite Hp. auto.
      * right. split; [reflexivity|]. exists w1, e, l1. auto.
    + left. exists [], x, q, w, b, l. auto.
Qed.

(* what the pieces amount to *)
Lemma feed_so_far xs : forall w e l w' e' l', feed xs (w, e, l) = Some (w', e', l') ->
  exists out, so_far keqb key_of ts_of init push finish dur late xs w = Some out /\ e' = e ++ lefts out /\ l' = l ++ rights out.
Proof.
  induction xs as [|x xs IH]; intros w e l w' e' l'; cbn [feed so_far].
  - intros [= <- <- <-]. exists []. cbn. rewrite !app_nil_r. auto.
  - destruct (process w x) as [[[w1 o] l1]|] eqn:Hp; [|discriminate]. intros H. destruct (IH _ _ _ _ _ _ H) as (out & -> & -> & ->). cbn [option_map].
    eexists. split; [reflexivity|]. rewrite !lefts_app, !rights_app, lefts_inl, lefts_inr, rights_inl, rights_inr, app_nil_r. cbn [app]. now rewrite !app_assoc.
Qed.
Lemma feed_to_come xs : forall w e l w' e' l' fl, feed xs (w, e, l) = Some (w', e', l') -> wflush finish dur w' = Some (wnew, fl) ->
  exists out, to_come keqb key_of ts_of dur late init push finish xs w = Some out /\ e' ++ fl = e ++ lefts out /\ l' = l ++ rights out.
Proof.
  induction xs as [|x xs IH]; intros w e l w' e' l' fl; cbn [feed to_come].
  - intros [= <- <- <-] Hf. rewrite Hf. eexists. split; [reflexivity|]. cbn [snd]. rewrite lefts_inl, rights_inl, app_nil_r. auto.
  - destruct (process w x) as [[[w1 o] l1]|] eqn:Hp; [|discriminate]. intros H Hf. destruct (IH _ _ _ _ _ _ _ H Hf) as (out & -> & E1 & ->). cbn [option_map].
    eexists. split; [reflexivity|]. rewrite E1. rewrite !lefts_app, !rights_app, lefts_inl, lefts_inr, rights_inl, rights_inr, app_nil_r. cbn [app]. now rewrite !app_assoc.
Qed.
Lemma to_come_feed xs : forall w e l, to_come keqb key_of ts_of dur late init push finish xs w <> None ->
  exists w' e' l', feed xs (w, e, l) = Some (w', e', l') /\ wflush finish dur w' <> None.
Proof.
  induction xs as [|x xs IH]; intros w e l; cbn [feed to_come].
  - intros H. exists w, e, l. split; [reflexivity|]. intros Hc. rewrite Hc in H. apply H. reflexivity.
  - destruct (process w x) as [[[w1 o] l1]|]; [|congruence]. intros H. apply IH. intros Hc. rewrite Hc in H. apply H. reflexivity.
Qed.

Local Notation result l := (finish (fold_left push l init)).
Local Notation grp := (group keqb key_of ts_of late).
Hypothesis Hd : 0 < dur.
Hypothesis Hl : 0 <= late.
Lemma feed_all xs w e l fl : feed xs (wnew, [], []) = Some (w, e, l) -> wflush finish dur w = Some (wnew, fl) ->
  l = late_items keqb key_of ts_of late xs /\
  exists ids : list (K * Z), e ++ fl = map (fun i => ((snd i, snd i + dur), result (grp xs (fst i) (snd i)))) ids /\
    NoDup ids /\ (forall k s, In (k, s) ids <-> minute_start s /\ grp xs k s <> []).
Proof.
  intros Hf Hw. destruct (feed_to_come _ _ _ _ _ _ _ _ Hf Hw) as (out & H1 & H2 & H3). cbn [app] in *.
  change (@wnew K A) with (lift_w init push (@wnew K (list I))) in H1. rewrite to_come_lift in H1.
  destruct (to_come _ _ _ _ _ [] snoc _ _ _) as [out1|] eqn:Ho; [|discriminate]. cbn in H1. injection H1 as <-.
  destruct (final keqb key_of ts_of keqb_spec dur late Hd Hl _ _ Ho) as (L & g & G1 & G2 & G3).
  rewrite rights_lift in H3. rewrite lefts_lift in H2. split; [congruence|]. exists g. split; [|split].
  - rewrite H2, G1. unfold lift_o. rewrite map_map. apply map_ext_in. intros [k s] Hg. unfold report. cbn [fst snd].
    rewrite wgroup_group; [reflexivity|]. apply G2 in Hg. eapply wgroup_minute. exact Hg.
  - clear -G3 keqb_spec. induction g as [|[k s] g IH]; constructor.
    + intros Hx. specialize (G3 k). unfold starts in G3. cbn [filter fst] in G3. destruct (keqb_spec k k); [|congruence]. cbn [map snd] in G3.
      inversion G3 as [|? ? _ Hf]; subst. rewrite Forall_forall in Hf. assert (Hs : s < s); [apply Hf|lia].
      apply in_map_iff. exists (k, s). split; [reflexivity|]. apply filter_In. split; [exact Hx|]. cbn. destruct (keqb_spec k k); congruence.
    + apply IH. intros k'. specialize (G3 k'). unfold starts in *. cbn [filter fst] in G3. destruct (keqb k k'); [|exact G3]. inversion G3; assumption.
  - intros k s. rewrite G2. split.
    + intros Hx. pose proof (wgroup_minute _ _ _ _ _ _ _ Hx) as Hm. split; [exact Hm|]. now rewrite wgroup_group.
    + intros [Hm Hx]. now rewrite <- wgroup_group.
Qed.
End Feed.

Lemma top_newest {K I} (keqb : K -> K -> bool) (key_of : I -> K) (ts_of : I -> Z) (keqb_spec : forall a b, reflect (a = b) (keqb a b)) xs k t :
  top keqb key_of ts_of xs k = Some t <-> newest key_of ts_of xs k t.
Proof.
  revert t. induction xs as [|x xs IH]; intros t; cbn [top].
  - split; [discriminate|]. intros [(x & [] & _) _].
  - destruct (keqb_spec (key_of x) k) as [Hk|Hk].
    + destruct (top keqb key_of ts_of xs k) as [t'|] eqn:Ht.
      * destruct (proj1 (IH t') eq_refl) as [(y & Y1 & Y2 & Y3) Y4]. split.
        -- intros Hx. injection Hx as <-. split.
           ++ destruct (Z.max_spec (ts_of x) t') as [[? ->]|[? ->]]; [exists y; repeat split; [right|..]; auto|exists x; repeat split; [left; reflexivity|exact Hk]].
           ++ intros z [<-|Hz] Hzk; [lia|]. specialize (Y4 z Hz Hzk). lia.
        -- intros [(z & Z1 & Z2 & Z3) Z4]. f_equal. pose proof (Z4 x (or_introl eq_refl) Hk). pose proof (Z4 y (or_intror Y1) Y2).
           destruct Z1 as [<-|Z1]; [lia|]. specialize (Y4 z Z1 Z2). lia.
      * assert (Hno : forall z, In z xs -> key_of z <> k).
        { intros z Hz Hzk. clear -Hz Hzk Ht keqb_spec. induction xs as [|y ys IHy]; [destruct Hz|]. cbn [top] in Ht. destruct (keqb_spec (key_of y) k); [destruct (top _ _ _ ys k); discriminate|].
          destruct Hz as [<-|Hz]; [congruence|auto]. }
        split.
        -- intros Hx. injection Hx as <-. split; [exists x; repeat split; [left; reflexivity|exact Hk]|].
           intros z [<-|Hz] Hzk; [lia|]. exfalso. exact (Hno z Hz Hzk).
        -- intros [(z & Z1 & Z2 & Z3) Z4]. f_equal. destruct Z1 as [<-|Z1]; [lia|]. exfalso. exact (Hno z Z1 Z2).
    + rewrite IH. split; intros [(y & Y1 & Y2 & Y3) Y4].
      * split; [exists y; repeat split; [right|..]; auto|]. intros z [<-|Hz] Hzk; [congruence|auto].
      * destruct Y1 as [<-|Y1]; [congruence|]. split; [exists y; auto|]. intros z Hz Hzk. apply Y4; [right|]; auto.
Qed.

Section Feed2.
Context {K I A V : Type} (keqb : K -> K -> bool) (key_of : I -> K) (ts_of : I -> Z).
Hypothesis keqb_spec : forall a b, reflect (a = b) (keqb a b).
Context (init : A) (push : A -> I -> A) (finish : A -> V) (dur late : Z).
Local Notation feed := (feed keqb key_of ts_of init push finish dur late).
Local Notation result l := (finish (fold_left push l init)).
Local Notation grp := (group keqb key_of ts_of late).
Hypothesis Hd : 0 < dur.
Hypothesis Hl : 0 <= late.
Lemma feed_now xs w e l : feed xs (wnew, [], []) = Some (w, e, l) ->
  l = late_items keqb key_of ts_of late xs /\
  exists ids : list (K * Z), e = map (fun i => ((snd i, snd i + dur), result (grp xs (fst i) (snd i)))) ids /\
    NoDup ids /\ (forall k s, In (k, s) ids <-> minute_start s /\ grp xs k s <> [] /\ over key_of ts_of late dur xs k s).
Proof.
  intros Hf. destruct (feed_so_far _ _ _ _ _ _ _ _ _ _ _ _ _ _ _ Hf) as (out & H1 & H2 & H3). cbn [app] in *.
  change (@wnew K A) with (lift_w init push (@wnew K (list I))) in H1. rewrite so_far_lift in H1.
  destruct (so_far _ _ _ [] snoc _ _ _ _ _) as [out1|] eqn:Ho; [|discriminate]. cbn in H1. injection H1 as <-.
  destruct (so_far_lrun keqb key_of ts_of dur late xs wnew [] [] out1 Ho) as (w1 & e1 & l1 & L1 & L2 & L3). cbn [app] in *. subst e1 l1.
  rewrite rights_lift in H3. rewrite lefts_lift in H2.
  pose proof (winv_run keqb key_of ts_of keqb_spec dur late Hd Hl xs [] _ _ _ _ (winv_nil keqb key_of ts_of dur late) L1) as [I1 I2 I3 I4 I5 (g & G1 & G2 & G3)].
  cbn [app fst snd] in *. split; [congruence|]. exists g.
  assert (Hov : forall k s, (~ above keqb key_of ts_of dur late xs k s <-> over key_of ts_of late dur xs k s)).
  { intros k s. unfold above, over. pose proof (fun t => top_newest keqb key_of ts_of keqb_spec xs k t) as Htop.
    destruct (top keqb key_of ts_of xs k) as [t|] eqn:Ht.
    - split.
      + intros Hx. exists t, (window_start (t - late)). split; [apply Htop; reflexivity|]. split; [apply ws_minute|].
        pose proof (ws_le (t - late)). pose proof (ws_lt (t - late)). lia.
      + intros (t' & m & T1 & T2 & T3 & T4). apply Htop in T1. injection T1 as <-. apply (ws_iff _ _ T2) in T3. rewrite T3. lia.
    - split; [tauto|]. intros (t' & m & T1 & _). apply Htop in T1. discriminate. }
  split; [|split].
  - rewrite H2, G1. unfold lift_o. rewrite map_map. apply map_ext_in. intros [k s] Hg. unfold report. cbn [fst snd].
    rewrite wgroup_group; [reflexivity|]. apply G2 in Hg as [Hg _]. eapply wgroup_minute. exact Hg.
  - clear -G3 keqb_spec. induction g as [|[k s] g IH]; constructor.
    + intros Hx. specialize (G3 k). unfold starts in G3. cbn [filter fst] in G3. destruct (keqb_spec k k); [|congruence]. cbn [map snd] in G3.
      inversion G3 as [|? ? _ Hf]; subst. rewrite Forall_forall in Hf. assert (Hs : s < s); [apply Hf|lia].
      apply in_map_iff. exists (k, s). split; [reflexivity|]. apply filter_In. split; [exact Hx|]. cbn. destruct (keqb_spec k k); congruence.
    + apply IH. intros k'. specialize (G3 k'). unfold starts in *. cbn [filter fst] in G3. destruct (keqb k k'); [|exact G3]. inversion G3; assumption.
  - intros k s. rewrite G2. split.
    + intros [Hx Ha]. pose proof (wgroup_minute _ _ _ _ _ _ _ Hx) as Hm. rewrite <- (wgroup_group keqb key_of ts_of late xs k s Hm) in Hx.
      split; [exact Hm|]. split; [exact Hx|]. apply Hov; auto.
    + intros (Hm & Hx & Ho1). split; [now rewrite <- wgroup_group|]. apply Hov; auto.
Qed.
End Feed2.
