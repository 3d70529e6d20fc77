(* The collecting aggregator: every item ends up in exactly one place, and
   what each window holds. *)
From Verif Require Import Base MapLib WinModel WinSpec WinProofs.
From Coq Require Import ZArith Lia Permutation Sorted ZifyBool.
Local Open Scope Z_scope.

Lemma time_sub_ok t d r : time_sub t d = Some r -> r = t - d.
Proof. unfold time_sub. destruct (in_range _); congruence. Qed.
Lemma time_add_ok t d r : time_add t d = Some r -> r = t + d.
Proof. unfold time_add. destruct (in_range _); congruence. Qed.
Lemma wresults_ok {A V} (fin : A -> V) dur m : forall out, wresults fin dur m = Some out ->
  out = map (fun w => ((fst w, fst w + dur), fin (snd w))) m.
Proof.
  induction m as [|[s a] m IH]; cbn; intros out H; [injection H as <-; reflexivity|].
  destruct (time_add s dur) as [e|] eqn:He; [|discriminate]. apply time_add_ok in He. subst e.
  destruct (wresults fin dur m) as [r|]; [|discriminate]. injection H as <-. now rewrite (IH r eq_refl).
Qed.
Lemma SS_app {A} (R : A -> A -> Prop) l1 l2 : StronglySorted R l1 -> StronglySorted R l2 ->
  (forall a b, In a l1 -> In b l2 -> R a b) -> StronglySorted R (l1 ++ l2).
Proof.
  intros H1 H2 H. induction H1 as [|a l1 H1 IH Ha]; cbn; [exact H2|]. constructor.
  - apply IH. intros. apply H; [right|]; auto.
  - apply Forall_app. split; [exact Ha|]. apply Forall_forall. intros b Hb. apply H; [left; reflexivity|exact Hb].
Qed.
Lemma SS_filter {A} (R : A -> A -> Prop) p l : StronglySorted R l -> StronglySorted R (filter p l).
Proof.
  induction 1 as [|a l H IH Ha]; cbn; [constructor|]. destruct (p a); [|exact IH]. constructor; [exact IH|].
  apply Forall_forall. intros x Hx. apply filter_In in Hx as [Hx _]. rewrite Forall_forall in Ha. auto.
Qed.
Lemma SS_map {A B} (f : A -> B) (R : B -> B -> Prop) l : StronglySorted (fun a b => R (f a) (f b)) l -> StronglySorted R (map f l).
Proof.
  induction 1 as [|a l H IH Ha]; cbn; [constructor|]. constructor; [exact IH|]. apply Forall_forall. intros y Hy.
  apply in_map_iff in Hy as (x & <- & Hx). rewrite Forall_forall in Ha. auto.
Qed.

Section R.
Context {K I : Type} (keqb : K -> K -> bool) (key_of : I -> K) (ts_of : I -> Z).
Hypothesis keqb_spec : forall a b, reflect (a = b) (keqb a b).
Context (dur late : Z).
Local Notation process := (process_item keqb key_of ts_of [] snoc (fun l => l) dur late).
Local Notation wst := (wstate (K := K) (A := list I)).

Definition acc : Type := (wst * list (window * list I) * list I)%type.
Fixpoint lrun (xs : list I) (a : acc) : option acc :=
  match xs with
  | [] => Some a
  | x :: r => match a with (w, e, l) =>
      match process w x with
      | None => None
      | Some (w', o, l') => lrun r (w', e ++ o, l ++ l')
      end end
  end.
Lemma lrun_app xs ys a : lrun (xs ++ ys) a = match lrun xs a with Some a' => lrun ys a' | None => None end.
Proof.
  revert a. induction xs as [|x xs IH]; intros [[w e] l]; cbn; [reflexivity|]. destruct (process w x) as [[[w' o] l']|]; auto.
Qed.
(* the windows and the late items among what comes out *)
Definition lefts {X Y} (l : list (X + Y)) : list X := flat_map (fun o => match o with inl a => [a] | inr _ => [] end) l.
Definition rights {X Y} (l : list (X + Y)) : list Y := flat_map (fun o => match o with inl _ => [] | inr b => [b] end) l.
Lemma lefts_app {X Y} (a b : list (X + Y)) : lefts (a ++ b) = lefts a ++ lefts b.
Proof. apply flat_map_app. Qed.
Lemma rights_app {X Y} (a b : list (X + Y)) : rights (a ++ b) = rights a ++ rights b.
Proof. apply flat_map_app. Qed.
Lemma lefts_inl {X Y} (l : list X) : lefts (map (inl (B := Y)) l) = l.
Proof. unfold lefts, rights. induction l; cbn; congruence. Qed.
Lemma lefts_inr {X Y} (l : list Y) : lefts (map (inr (A := X)) l) = [].
Proof. unfold lefts, rights. induction l; cbn; congruence. Qed.
Lemma rights_inl {X Y} (l : list X) : rights (map (inl (B := Y)) l) = [].
Proof. unfold lefts, rights. induction l; cbn; congruence. Qed.
Lemma rights_inr {X Y} (l : list Y) : rights (map (inr (A := X)) l) = l.
Proof. unfold lefts, rights. induction l; cbn; congruence. Qed.

Lemma to_come_lrun xs : forall w e0 l0 out, to_come keqb key_of ts_of dur late [] snoc (fun l => l) xs w = Some out ->
  exists w' e l, lrun xs (w, e0, l0) = Some (w', e, l) /\ exists fl, wflush (fun l => l) dur w' = Some (wnew, fl) /\
    e0 ++ lefts out = e ++ fl /\ l0 ++ rights out = l.
Proof.
  induction xs as [|x xs IH]; intros w e0 l0 out H; cbn [to_come lrun] in *.
  - destruct (wflush (fun l => l) dur w) as [[w' fl]|] eqn:Hf; [|discriminate]. injection H as <-. exists w, e0, l0. split; [reflexivity|].
    exists fl. assert (w' = wnew) as -> by (unfold wflush in Hf; destruct (wresults _ _ _); inversion Hf; reflexivity).
    cbn [snd]. rewrite lefts_inl, rights_inl, app_nil_r. auto.
  - destruct (process w x) as [[[w' o] l']|] eqn:Hp; [|discriminate].
    destruct (to_come _ _ _ _ _ _ _ _ xs w') as [out'|] eqn:Ht; [|discriminate]. cbn in H. injection H as <-.
    destruct (IH w' (e0 ++ o) (l0 ++ l') out' Ht) as (w2 & e & l & H1 & fl & H2 & H3 & H4).
    exists w2, e, l. split; [exact H1|]. exists fl. split; [exact H2|].
    rewrite !lefts_app, !rights_app, lefts_inl, lefts_inr, rights_inl, rights_inr, app_nil_r. cbn [app].
    rewrite !app_assoc in *. auto.
Qed.

(* ---- nothing lost, nothing twice ---- *)
Lemma perm_mrem {W} (g : K * W -> list I) k v m : mget keqb k m = Some v -> NoDup (mkeys m) ->
  Permutation (flat_map g m) (g (k, v) ++ flat_map g (mrem keqb k m)).
Proof.
  induction m as [|[k' v'] m IH]; cbn; [discriminate|]. intros H Hn. inversion Hn as [|? ? Hx Hn']; subst.
  destruct (keqb_spec k k') as [->|Hk].
  - injection H as ->. apply Permutation_app_head.
    replace (mrem keqb k' m) with m; [apply Permutation_refl|]. clear -Hx keqb_spec. symmetry.
    induction m as [|[k2 v2] m IH]; cbn in *; [reflexivity|].
    destruct (keqb_spec k' k2) as [->|]; [exfalso; apply Hx; left; reflexivity|]. f_equal. apply IH. intros Hy. apply Hx. right. exact Hy.
  - rewrite (IH H Hn'). cbn. rewrite !app_assoc. apply Permutation_app_tail. apply Permutation_app_comm.
Qed.
Lemma mrem_none {W} k (m : list (K * W)) : mget keqb k m = None -> mrem keqb k m = m.
Proof.
  induction m as [|[k' v'] m IH]; cbn; [reflexivity|]. destruct (keqb k k'); [discriminate|]. intros H. now rewrite IH.
Qed.
Lemma mrem_mset {W} k (v : W) m : mrem keqb k (mset keqb k v m) = mrem keqb k m.
Proof.
  induction m as [|[k' v'] m IH]; cbn.
  - now rewrite (eqb_refl' keqb keqb_spec).
  - destruct (keqb k k') eqn:Hk; cbn; rewrite Hk; [reflexivity|now rewrite IH].
Qed.
Lemma perm_mset {W} (g : K * W -> list I) k v m : NoDup (mkeys m) ->
  Permutation (flat_map g (mset keqb k v m)) (g (k, v) ++ flat_map g (mrem keqb k m)).
Proof.
  intros H. rewrite (perm_mrem g k v (mset keqb k v m)).
  - rewrite mrem_mset. apply Permutation_refl.
  - apply (mget_mset_eq keqb keqb_spec).
  - apply (NoDup_mset keqb keqb_spec). exact H.
Qed.
Definition held (m : list (Z * list I)) : list I := flat_map snd m.
Definition all_held (w : wst) : list I := flat_map (fun e => held (snd e)) (w_active w).
Lemma held_wpush s x m : Permutation (held (wpush [] snoc s x m)) (held m ++ [x]).
Proof.
  unfold held. induction m as [|[s' l] m IH]; cbn [wpush flat_map snd].
  - cbn. apply Permutation_refl.
  - destruct (s =? s').
    + cbn [flat_map snd]. unfold snoc. rewrite <- !app_assoc. apply Permutation_app_head. apply Permutation_app_comm.
    + destruct (s <? s'); cbn [flat_map snd].
      * cbn [snoc app]. unfold snoc. cbn [app]. rewrite <- Permutation_cons_append. apply Permutation_refl.
      * rewrite IH. rewrite app_assoc. apply Permutation_refl.
Qed.
Lemma held_filter (p : Z * list I -> bool) m : Permutation (held m) (held (filter p m) ++ held (filter (fun w => negb (p w)) m)).
Proof.
  unfold held. induction m as [|w m IH]; cbn; [apply Permutation_refl|]. destruct (p w); cbn; rewrite IH.
  - rewrite app_assoc. apply Permutation_refl.
  - rewrite !app_assoc. apply Permutation_app_tail. apply Permutation_app_comm.
Qed.
Lemma concat_snd m : concat (map snd (map (fun w : Z * list I => ((fst w, fst w + dur), snd w)) m)) = held m.
Proof. unfold held. induction m as [|w m IH]; cbn; [reflexivity|now rewrite IH]. Qed.

(* what process_item does, in the case that is not late *)
Lemma process_cases w x w' o l : process w x = Some (w', o, l) ->
  let now := match mget keqb (key_of x) (w_now w) with Some t => t | None => ts_of x end in
  let old := match mget keqb (key_of x) (w_active w) with Some m => m | None => [] end in
  (ts_of x < now - late /\ w' = mkW (w_active w) (mset keqb (key_of x) now (w_now w)) /\ o = [] /\ l = [x]) \/
  (now - late <= ts_of x /\ l = [] /\
   let now' := Z.max now (ts_of x) in
   let cut := window_start (now' - late) - dur in
   let ws := wpush [] snoc (window_start (ts_of x)) x old in
   w' = mkW (mset keqb (key_of x) (filter (fun w => negb (fst w <=? cut)) ws) (w_active w)) (mset keqb (key_of x) now' (w_now w)) /\
   o = map (fun w => ((fst w, fst w + dur), snd w)) (filter (fun w => fst w <=? cut) ws)).
Proof.
  unfold process_item. intros H.
  set (now := match mget keqb (key_of x) (w_now w) with Some t => t | None => ts_of x end) in *.
  set (old := match mget keqb (key_of x) (w_active w) with Some m => m | None => [] end) in *.
  cbv zeta. destruct (time_sub now late) as [b|] eqn:Hb; [|discriminate]. apply time_sub_ok in Hb. subst b.
  destruct (ts_of x <? now - late) eqn:Hl.
  - left. injection H as <- <- <-. split; [lia|]. auto.
  - right. split; [lia|]. destruct (time_sub (Z.max now (ts_of x)) late) as [b|] eqn:Hb; [|discriminate]. apply time_sub_ok in Hb. subst b.
    destruct (time_sub (window_start _) dur) as [cut|] eqn:Hc; [|discriminate]. apply time_sub_ok in Hc. subst cut.
    destruct (wresults _ _ _) as [out|] eqn:Ho; [|discriminate]. apply wresults_ok in Ho. injection H as <- <- <-. auto.
Qed.

Lemma process_conserves w x w' o l : NoDup (mkeys (w_active w)) -> process w x = Some (w', o, l) ->
  NoDup (mkeys (w_active w')) /\ Permutation (concat (map snd o) ++ all_held w' ++ l) (all_held w ++ [x]).
Proof.
  intros Hn H. destruct (process_cases _ _ _ _ _ H) as [(H1 & -> & -> & ->)|(H1 & -> & -> & ->)].
  - cbn. split; [exact Hn|apply Permutation_refl].
  - cbn [w_active]. split; [apply (NoDup_mset keqb keqb_spec); exact Hn|]. rewrite app_nil_r.
    set (ws := wpush _ _ _ _ _). set (cut := _ - dur). rewrite concat_snd. unfold all_held at 1. cbn [w_active].
    rewrite (perm_mset (fun e => held (snd e)) (key_of x) _ (w_active w) Hn). cbn [snd].
    rewrite app_assoc. rewrite <- (held_filter (fun w => fst w <=? cut) ws). unfold ws. rewrite held_wpush.
    unfold all_held. destruct (mget keqb (key_of x) (w_active w)) as [m|] eqn:Hm.
    + rewrite (perm_mrem (fun e => held (snd e)) _ _ _ Hm Hn). cbn [snd]. rewrite <- !app_assoc. apply Permutation_app_head. apply Permutation_app_comm.
    + rewrite (mrem_none _ _ Hm). cbn [held flat_map app]. apply Permutation_cons_append.
Qed.
Lemma lrun_conserves xs : forall w e l w' e' l', NoDup (mkeys (w_active w)) -> lrun xs (w, e, l) = Some (w', e', l') ->
  NoDup (mkeys (w_active w')) /\
  Permutation (concat (map snd e') ++ all_held w' ++ l') (concat (map snd e) ++ all_held w ++ l ++ xs).
Proof.
  induction xs as [|x xs IH]; intros w e l w' e' l' Hn H; cbn [lrun] in H.
  - injection H as <- <- <-. rewrite app_nil_r. split; [exact Hn|apply Permutation_refl].
  - destruct (process w x) as [[[w1 o] l1]|] eqn:Hp; [|discriminate].
    destruct (process_conserves _ _ _ _ _ Hn Hp) as [Hn1 Hp1]. destruct (IH _ _ _ _ _ _ Hn1 H) as [Hn2 Hp2].
    split; [exact Hn2|]. rewrite Hp2. rewrite map_app, concat_app. rewrite <- !app_assoc. apply Permutation_app_head.
    transitivity (l ++ (concat (map snd o) ++ all_held w1 ++ l1) ++ xs).
    + rewrite <- !app_assoc. rewrite (app_assoc (concat (map snd o))). rewrite Permutation_app_swap_app. rewrite <- !app_assoc. apply Permutation_refl.
    + rewrite Hp1. rewrite <- !app_assoc. cbn [app]. apply Permutation_app_swap_app.
Qed.
Lemma conservation xs out : to_come keqb key_of ts_of dur late [] snoc (fun l => l) xs wnew = Some out ->
  Permutation (concat (map snd (lefts out)) ++ rights out) xs.
Proof.
  intros H. destruct (to_come_lrun xs wnew [] [] out H) as (w' & e & l & H1 & fl & H2 & H3 & H4). cbn [app] in *.
  destruct (lrun_conserves xs wnew [] [] w' e l ltac:(constructor) H1) as [Hn Hp]. cbn [map concat app all_held flat_map w_active wnew] in Hp.
  rewrite H3, H4. rewrite map_app, concat_app. rewrite <- Hp. rewrite <- app_assoc. apply Permutation_app_head.
  unfold wflush in H2. destruct (wresults _ _ _) as [r|] eqn:Hr; [|discriminate]. injection H2 as ->. apply wresults_ok in Hr. subst fl.
  rewrite concat_snd. unfold all_held, held. apply Permutation_app_tail. clear.
  induction (w_active w') as [|[k m] a IH]; cbn; [apply Permutation_refl|]. rewrite flat_map_app. now rewrite IH.
Qed.
End R.
