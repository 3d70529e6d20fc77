(* The cache actor. *)
From Verif Require Import Base MapLib YcModel YcSpec YcFileProofs YcProofs.
From Coq Require Import String Ascii Permutation.
Open Scope N_scope.

Definition waiting (m : list (skey * list N)) : list N := flat_map snd m.
Definition at_key (k : skey) (m : list (skey * list N)) : list N := match kget k m with Some l => l | None => [] end.

Lemma waiting_krem k m : exists rest, Permutation (waiting m) (at_key k m ++ waiting (krem k m) ++ rest).
Proof.
  induction m as [|[k' l] m [rest IH]]; [exists []; reflexivity|]. unfold at_key, kget, krem, waiting in *. cbn [mget mrem flat_map snd].
  destruct (skey_eqb k k').
  - exists (match mget skey_eqb k m with Some l => l | None => [] end ++ rest). apply Permutation_app_head. rewrite IH.
    rewrite app_assoc. rewrite (Permutation_app_comm (match mget skey_eqb k m with Some l0 => l0 | None => [] end)). rewrite <- app_assoc. reflexivity.
  - exists rest. cbn [flat_map snd]. rewrite IH. rewrite <- app_assoc, !app_assoc. apply Permutation_app_tail. apply Permutation_app_tail. apply Permutation_app_comm.
Qed.
Lemma waiting_krem_exact k m : NoDup (mkeys m) -> Permutation (waiting m) (at_key k m ++ waiting (krem k m)).
Proof.
  induction m as [|[k' l] m IH]; intros Hn; [reflexivity|]. inversion Hn as [|? ? Hx Hn']; subst. specialize (IH Hn'). unfold at_key, kget, krem, waiting in *. cbn [mget mrem flat_map snd].
  destruct (skey_eqb_spec k k') as [->|E].
  - rewrite (mrem_notin _ skey_eqb_spec) by exact Hx. reflexivity.
  - cbn [flat_map snd]. rewrite IH. rewrite !app_assoc. apply Permutation_app_tail. apply Permutation_app_comm.
Qed.
Lemma waiting_kset k n m : Permutation (waiting (kset k (at_key k m ++ [n]) m)) (n :: waiting m).
Proof.
  induction m as [|[k' l] m IH]; [reflexivity|]. unfold at_key, kget, kset, waiting in *. cbn [mget mset]. destruct (skey_eqb k k') eqn:E.
  - cbn [flat_map snd]. rewrite <- app_assoc. cbn [app]. apply Permutation_sym, Permutation_middle.
  - cbn [flat_map snd]. rewrite IH. apply Permutation_sym, Permutation_middle.
Qed.
Lemma answered_map s (r : option yref) l : answered (map (fun n => (n, s, r)) l) = l.
Proof. unfold answered. rewrite map_map. cbn. apply map_id. Qed.
Lemma answered_app a b : answered (a ++ b) = answered a ++ answered b.
Proof. apply map_app. Qed.

(* ---- nobody is answered twice ---- *)
Definition kept (asked : list N) (a : actor) (rs : list resp) (a' : actor) : Prop :=
  exists rest, Permutation (asked ++ waiting (a_pending a)) (answered rs ++ waiting (a_pending a') ++ rest).
Lemma kept_refl a : kept [] a [] a.
Proof. exists []. cbn. now rewrite app_nil_r. Qed.
Lemma worker_result_kept a w o : kept [] a (snd (worker_result a w o)) (fst (worker_result a w o)).
Proof.
  unfold kept, worker_result. destruct o as [| |rest rcid lib sch]; cbn [fst snd].
  - exists []. cbn. now rewrite app_nil_r.
  - rewrite answered_map. exact (waiting_krem _ _).
  - destruct (put_plan _ _ _ _ _) as [[xs c'] r]. cbn [fst snd a_pending]. rewrite answered_map. set (s := result_info w _).
    set (e := key_of (empty_info _ _ _)). destruct (waiting_krem (key_of s) (a_pending a)) as [r1 P1].
    destruct (waiting_krem e (krem (key_of s) (a_pending a))) as [r2 P2]. exists (r2 ++ r1). rewrite app_nil_l. rewrite P1, P2.
    unfold pending_of, at_key. rewrite <- !app_assoc. reflexivity.
Qed.
Lemma filter_sub {A} (f : A -> bool) l : exists rest, Permutation l (filter f l ++ rest).
Proof.
  induction l as [|x l [rest IH]]; [exists []; reflexivity|]. cbn [filter]. destruct (f x).
  - exists rest. cbn. now rewrite <- IH.
  - exists (x :: rest). rewrite <- Permutation_middle. now rewrite <- IH.
Qed.
Lemma cleanup_kept f m : exists rest, Permutation (waiting m)
  (waiting (filter (fun kl : skey * list N => match snd kl with [] => false | _ => true end) (map (fun kl => (fst kl, filter f (snd kl))) m)) ++ rest).
Proof.
  induction m as [|[k l] m [rest IH]]; [exists []; reflexivity|]. destruct (filter_sub f l) as [r1 P1]. unfold waiting in *. cbn [map filter flat_map snd fst].
  destruct (filter f l) as [|y l'] eqn:E; cbn [flat_map snd].
  - exists (r1 ++ rest). rewrite P1, IH. cbn [app]. rewrite !app_assoc. apply Permutation_app_tail. apply Permutation_app_comm.
  - exists (r1 ++ rest). rewrite P1, IH. rewrite <- !app_assoc. apply Permutation_app_head. rewrite !app_assoc. apply Permutation_app_tail. apply Permutation_app_comm.
Qed.
Lemma enqueue_kept a n w : kept [n] a [] (enqueue a n w).
Proof.
  exists []. unfold enqueue. cbn [a_pending answered map app]. rewrite app_nil_r. apply Permutation_sym. exact (waiting_kset (worker_key w) n (a_pending a)).
Qed.
Lemma astep_kept a ev : kept (asks ev) a (snd (astep a ev)) (fst (astep a ev)).
Proof.
  destruct ev as [n s|n l ip id|n s o|n l ip id o|n cid|i o|closed]; cbn [astep asks].
  - destruct (get_by_info _ s) as [r|]; [exists []; cbn; now rewrite app_nil_r|]. apply enqueue_kept.
  - destruct (get_by_id _ ip id) as [[s r]|]; [exists []; cbn; now rewrite app_nil_r|]. apply enqueue_kept.
  - assert (H : kept [] a (snd match get_by_info (a_cache a) s with Some _ => (a, []) | None => worker_result a (WInfo s) (one_outcome o) end)
                   (fst match get_by_info (a_cache a) s with Some _ => (a, []) | None => worker_result a (WInfo s) (one_outcome o) end)).
    { destruct (get_by_info _ s); [apply kept_refl|apply worker_result_kept]. }
    destruct (match get_by_info (a_cache a) s with Some _ => (a, []) | None => worker_result a (WInfo s) (one_outcome o) end) as [a' rs]. cbn [fst snd] in *.
    destruct H as [rest P]. exists rest. rewrite answered_app. cbn [answered map fst]. rewrite <- app_assoc. cbn [app].
    rewrite <- Permutation_middle. constructor. exact P.
  - destruct (get_by_id _ ip id) as [[s r]|]; [exists []; cbn; now rewrite app_nil_r|].
    destruct (worker_result_kept a (WId l ip id) (one_outcome o)) as [rest P]. exists (n :: rest). cbn [app].
    rewrite !app_assoc, <- Permutation_middle. rewrite <- app_assoc. constructor. exact P.
  - exists []. cbn. now rewrite app_nil_r.
  - destruct (nth_error (a_workers a) i) as [w|]; [|apply kept_refl].
    exact (worker_result_kept (Actor (a_cache a) (a_disk a) (a_pending a) (del_nth i (a_workers a))) w o).
  - cbn [fst snd]. unfold kept. cbn [a_pending answered map app]. exact (cleanup_kept _ _).
Qed.
Lemma arun_kept evs : forall a, kept (flat_map asks evs) a (snd (arun a evs)) (fst (arun a evs)).
Proof.
  induction evs as [|ev evs IH]; intros a; [apply kept_refl|]. cbn [arun flat_map]. destruct (astep_kept a ev) as [r1 P1]. destruct (astep a ev) as [a1 rs1].
  specialize (IH a1). destruct IH as [r2 P2]. destruct (arun a1 evs) as [a2 rs2]. cbn [fst snd] in *. exists (r2 ++ r1). rewrite answered_app.
  rewrite <- !app_assoc. rewrite (Permutation_app_comm (asks ev)). rewrite <- app_assoc. rewrite (Permutation_app_comm (waiting (a_pending a))), P1.
  rewrite Permutation_app_comm, <- !app_assoc. apply Permutation_app_head.
  rewrite (Permutation_app_comm r1), app_assoc, (Permutation_app_comm _ (flat_map asks evs)), P2, <- !app_assoc. reflexivity.
Qed.
Lemma arun_app a e1 e2 : arun a (e1 ++ e2) = (fst (arun (fst (arun a e1)) e2), snd (arun a e1) ++ snd (arun (fst (arun a e1)) e2)).
Proof.
  revert a. induction e1 as [|ev e1 IH]; intros a; cbn [app arun fst snd]; [destruct (arun a e2); reflexivity|].
  destruct (astep a ev) as [a1 r1]. rewrite IH. destruct (arun a1 e1) as [a2 r2]. cbn [fst snd]. rewrite app_assoc. reflexivity.
Qed.
Lemma NoDup_app_l {A} (a b : list A) : NoDup (a ++ b) -> NoDup a.
Proof. induction a as [|x a IH]; intros H; [constructor|]. inversion H as [|? ? Hx Hn]; subst. constructor; [|auto]. intros X. apply Hx. apply in_or_app. auto. Qed.
Lemma once evs : NoDup (flat_map asks evs) -> NoDup (answered (snd (arun new_actor evs))) /\ incl (answered (snd (arun new_actor evs))) (flat_map asks evs).
Proof.
  intros H. destruct (arun_kept evs new_actor) as [rest P]. cbn [new_actor a_pending waiting flat_map] in P. rewrite app_nil_r in P. split.
  - apply (Permutation_NoDup P) in H. exact (NoDup_app_l _ _ H).
  - intros n Hn. apply (Permutation_in _ (Permutation_sym P)). apply in_or_app. left. exact Hn.
Qed.
(* a number that is not waiting and not asked for is not answered *)
Lemma not_asked evs a n : ~ In n (flat_map asks evs) -> ~ In n (waiting (a_pending a)) -> ~ In n (answered (snd (arun a evs))).
Proof.
  intros H1 H2 H. destruct (arun_kept evs a) as [rest P]. assert (X : In n (flat_map asks evs ++ waiting (a_pending a))).
  { apply (Permutation_in _ (Permutation_sym P)). apply in_or_app. left. exact H. }
  apply in_app_or in X as [X|X]; auto.
Qed.
Lemma pending_asked evs n : In n (waiting (a_pending (fst (arun new_actor evs)))) -> In n (flat_map asks evs).
Proof.
  intros H. destruct (arun_kept evs new_actor) as [rest P]. cbn [new_actor a_pending waiting flat_map] in P. rewrite app_nil_r in P.
  apply (Permutation_in _ (Permutation_sym P)). apply in_or_app. right. apply in_or_app. left. exact H.
Qed.
Lemma one_id_lost evs1 evs2 n l ip id o : NoDup (flat_map asks (evs1 ++ OneId n l ip id o :: evs2)) ->
  get_by_id (a_cache (fst (arun new_actor evs1))) ip id = None ->
  ~ In n (answered (snd (arun new_actor (evs1 ++ OneId n l ip id o :: evs2)))).
Proof.
  intros Hn Hm. rewrite flat_map_app in Hn. cbn [flat_map asks app] in Hn. pose proof (NoDup_remove_2 _ _ _ Hn) as Hx.
  assert (H1 : ~ In n (flat_map asks evs1)) by (intros X; apply Hx; apply in_or_app; auto).
  assert (H2 : ~ In n (flat_map asks evs2)) by (intros X; apply Hx; apply in_or_app; auto).
  rewrite arun_app. cbn [snd]. rewrite answered_app. intros H. apply in_app_or in H as [H|H].
  - exact (not_asked evs1 new_actor n H1 (fun X => X) H).
  - cbn [arun] in H. set (a := fst (arun new_actor evs1)) in *. cbn [astep] in H. rewrite Hm in H.
    assert (Hp : ~ In n (waiting (a_pending a))) by (intros X; exact (H1 (pending_asked _ _ X))).
    pose proof (worker_result_kept a (WId l ip id) (one_outcome o)) as [rest P]. destruct (worker_result a (WId l ip id) (one_outcome o)) as [a1 r1]. cbn [fst snd] in P.
    assert (X1 : ~ In n (answered r1)) by (intros X; apply Hp; apply (Permutation_in _ (Permutation_sym P)); apply in_or_app; auto).
    assert (X2 : ~ In n (waiting (a_pending a1))) by (intros X; apply Hp; apply (Permutation_in _ (Permutation_sym P)); apply in_or_app; right; apply in_or_app; auto).
    pose proof (not_asked evs2 a1 n H2 X2) as X3. destruct (arun a1 evs2) as [a2 r2]. cbn [snd] in *. rewrite answered_app in H. apply in_app_or in H as [H|H]; auto.
Qed.

(* ---- nobody is forgotten ---- *)
Record busy (a : actor) : Prop := {
  b_nodup : NoDup (mkeys (a_pending a));
  b_worker : forall k l, kget k (a_pending a) = Some l -> l <> [] -> exists w, In w (a_workers a) /\ worker_key w = k }.
Lemma busy_new : busy new_actor.
Proof. constructor; cbn; [constructor|]. intros k l E. discriminate E. Qed.
Lemma in_waiting n m : NoDup (mkeys m) -> (In n (waiting m) <-> exists k l, kget k m = Some l /\ In n l).
Proof.
  intros Hn. unfold waiting. rewrite in_flat_map. split.
  - intros ([k l] & H1 & H2). exists k, l. split; [|exact H2]. apply (In_mget _ skey_eqb_spec); assumption.
  - intros (k & l & H1 & H2). exists (k, l). split; [exact (mget_In _ skey_eqb_spec _ _ _ H1)|exact H2].
Qed.
Lemma result_key w o : o <> Panicked -> key_of (result_info w o) = worker_key w \/
  key_of (empty_info (si_local (result_info w o)) (si_ip (result_info w o)) (si_id (result_info w o))) = worker_key w /\ exists a b c d, o = Fetched a b c d.
Proof. destruct w as [s|l ip id], o as [| |rest rcid lib sch]; intros H; try congruence; cbn; auto. right. split; [reflexivity|]. eauto. Qed.
Lemma kget_krem_sub k k2 (m : list (skey * list N)) l : kget k (krem k2 m) = Some l -> k <> k2 /\ kget k m = Some l.
Proof. unfold kget, krem. rewrite (mget_mrem _ skey_eqb_spec). destruct (skey_eqb_spec k k2); intros X; [discriminate X|auto]. Qed.
Lemma NoDup_krem k (m : list (skey * list N)) : NoDup (mkeys m) -> NoDup (mkeys (krem k m)).
Proof. apply (NoDup_mrem _ skey_eqb_spec). Qed.
(* the result takes the key of its worker away, and only adds to nothing *)
Lemma worker_result_pending a w o : NoDup (mkeys (a_pending a)) ->
  NoDup (mkeys (a_pending (fst (worker_result a w o)))) /\ a_workers (fst (worker_result a w o)) = a_workers a /\
  (forall k l, kget k (a_pending (fst (worker_result a w o))) = Some l -> kget k (a_pending a) = Some l /\ (o <> Panicked -> k <> worker_key w)).
Proof.
  intros Hn. unfold worker_result. destruct o as [| |rest rcid lib sch].
  - cbn [fst]. split; [exact Hn|]. split; [reflexivity|]. intros k l E. split; [exact E|congruence].
  - cbn [fst a_pending a_workers]. split; [apply NoDup_krem; exact Hn|]. split; [reflexivity|]. intros k l E. apply kget_krem_sub in E as [E1 E2]. split; [exact E2|].
    intros _ ->. apply E1. destruct w; reflexivity.
  - destruct (put_plan _ _ _ _ _) as [[xs c'] r]. cbn [fst a_pending a_workers]. split; [apply NoDup_krem, NoDup_krem; exact Hn|]. split; [reflexivity|].
    intros k l E. apply kget_krem_sub in E as [E1 E]. apply kget_krem_sub in E as [E2 E]. split; [exact E|].
    intros Ho ->. destruct (result_key w _ Ho) as [X|[X _]]; congruence.
Qed.
Lemma in_del_nth {A} (l : list A) : forall i w x, nth_error l i = Some w -> In x l -> x = w \/ In x (del_nth i l).
Proof.
  induction l as [|y l IH]; intros [|i] w x E H; cbn in *; try discriminate E.
  - injection E as ->. destruct H as [->|H]; auto.
  - destruct H as [->|H]; [right; left; reflexivity|]. destruct (IH i w x E H) as [->|X]; auto.
Qed.
Lemma enqueue_busy a n w : busy a -> busy (enqueue a n w).
Proof.
  intros [B1 B2]. unfold enqueue. constructor; cbn [a_pending a_workers].
  - apply (NoDup_mset _ skey_eqb_spec). exact B1.
  - intros k l. unfold kget, kset. rewrite (mget_mset _ skey_eqb_spec). destruct (skey_eqb_spec k (worker_key w)) as [->|E].
    + intros X _. unfold pending_of. destruct (kget (worker_key w) (a_pending a)) as [[|m l']|] eqn:Ek.
      * exists w. split; [apply in_or_app; right; left; reflexivity|reflexivity].
      * apply (B2 _ _ Ek). discriminate.
      * exists w. split; [apply in_or_app; right; left; reflexivity|reflexivity].
    + intros X Y. destruct (B2 k l X Y) as (w' & A & B). exists w'. split; [|exact B]. destruct (pending_of a (worker_key w)); [apply in_or_app; auto|exact A].
Qed.
Lemma worker_result_busy a w o : busy a -> o <> Panicked -> busy (fst (worker_result a w o)).
Proof.
  intros [B1 B2] Ho. destruct (worker_result_pending a w o B1) as (H1 & H2 & H3). constructor; [exact H1|].
  rewrite H2. intros k l E Hl. destruct (H3 k l E) as [E1 _]. exact (B2 k l E1 Hl).
Qed.
Lemma astep_busy a ev : busy a -> healthy ev -> busy (fst (astep a ev)).
Proof.
  intros B H. destruct ev as [n s|n l ip id|n s o|n l ip id o|n cid|i o|closed]; cbn [astep].
  - destruct (get_by_info _ s); [exact B|]. now apply enqueue_busy.
  - destruct (get_by_id _ ip id) as [[s r]|]; [exact B|]. now apply enqueue_busy.
  - assert (X : busy (fst match get_by_info (a_cache a) s with Some _ => (a, []) | None => worker_result a (WInfo s) (one_outcome o) end)).
    { destruct (get_by_info _ s); [exact B|]. apply worker_result_busy; [exact B|]. destruct o as [[]|]; discriminate. }
    destruct (match get_by_info (a_cache a) s with Some _ => (a, []) | None => worker_result a (WInfo s) (one_outcome o) end) as [a' rs]. exact X.
  - destruct (get_by_id _ ip id) as [[s r]|]; [exact B|]. apply worker_result_busy; [exact B|]. destruct o as [[]|]; discriminate.
  - exact B.
  - destruct (nth_error (a_workers a) i) as [w|] eqn:Ew; [|exact B]. assert (Ho : o <> Panicked) by (destruct o; cbn in H; congruence || discriminate).
    destruct B as [B1 B2]. set (a1 := Actor _ _ _ _). destruct (worker_result_pending a1 w o B1) as (H1 & H2 & H3). constructor; [exact H1|].
    rewrite H2. intros k l E Hl. destruct (H3 k l E) as [E1 E2]. destruct (B2 k l E1 Hl) as (w' & X & Y). exists w'. split; [|exact Y].
    cbn [a1 a_workers]. destruct (in_del_nth _ _ _ _ Ew X) as [->|Z]; [|exact Z]. exfalso. exact (E2 Ho (eq_sym Y)).
  - destruct H.
Qed.
(* no number is dropped *)
Lemma worker_result_exact a w o n : NoDup (mkeys (a_pending a)) -> In n (waiting (a_pending a)) ->
  In n (answered (snd (worker_result a w o))) \/ In n (waiting (a_pending (fst (worker_result a w o)))).
Proof.
  intros Hn H. unfold worker_result. destruct o as [| |rest rcid lib sch].
  - right. exact H.
  - cbn [fst snd a_pending]. rewrite answered_map. apply (Permutation_in _ (waiting_krem_exact (key_of (result_info w Failed)) _ Hn)) in H. apply in_app_or in H. exact H.
  - destruct (put_plan _ _ _ _ _) as [[xs c'] r]. cbn [fst snd a_pending]. rewrite answered_map. set (s := result_info w _). set (e := key_of (empty_info _ _ _)).
    apply (Permutation_in _ (waiting_krem_exact (key_of s) _ Hn)) in H. apply in_app_or in H as [H|H].
    + left. apply in_or_app. left. exact H.
    + apply (Permutation_in _ (waiting_krem_exact e _ (NoDup_krem _ _ Hn))) in H. apply in_app_or in H as [H|H]; [left|right; exact H]. apply in_or_app. right. exact H.
Qed.
Lemma astep_waiting a ev n : busy a -> healthy ev -> In n (waiting (a_pending a)) -> In n (answered (snd (astep a ev))) \/ In n (waiting (a_pending (fst (astep a ev)))).
Proof.
  intros B Hh H. destruct ev as [m s|m l ip id|m s o|m l ip id o|m cid|i o|closed]; cbn [astep].
  - destruct (get_by_info _ s); [right; exact H|]. right. cbn [fst]. apply (Permutation_in _ (Permutation_sym (waiting_kset (key_of s) m (a_pending a)))). right. exact H.
  - destruct (get_by_id _ ip id) as [[s r]|]; [right; exact H|]. right. cbn [fst].
    apply (Permutation_in _ (Permutation_sym (waiting_kset (worker_key (WId l ip id)) m (a_pending a)))). right. exact H.
  - assert (X : In n (answered (snd match get_by_info (a_cache a) s with Some _ => (a, []) | None => worker_result a (WInfo s) (one_outcome o) end)) \/
                In n (waiting (a_pending (fst match get_by_info (a_cache a) s with Some _ => (a, []) | None => worker_result a (WInfo s) (one_outcome o) end)))).
    { destruct (get_by_info _ s); [right; exact H|]. apply worker_result_exact; [apply (b_nodup _ B)|exact H]. }
    destruct (match get_by_info (a_cache a) s with Some _ => (a, []) | None => worker_result a (WInfo s) (one_outcome o) end) as [a' rs]. cbn [fst snd] in *.
    destruct X as [X|X]; [left|right; exact X]. rewrite answered_app. apply in_or_app. left. exact X.
  - destruct (get_by_id _ ip id) as [[s r]|]; [right; exact H|]. apply worker_result_exact; [apply (b_nodup _ B)|exact H].
  - right. exact H.
  - destruct (nth_error (a_workers a) i) as [w|]; [|right; exact H]. apply worker_result_exact; [apply (b_nodup _ B)|exact H].
  - destruct Hh.
Qed.
Lemma astep_asked a ev n : stream_ask n ev -> In n (answered (snd (astep a ev))) \/ In n (waiting (a_pending (fst (astep a ev)))).
Proof.
  destruct ev as [m s|m l ip id|m s o|m l ip id o|m cid|i o|closed]; cbn [stream_ask]; intros Hq; try contradiction; subst; cbn [astep].
  - destruct (get_by_info _ s); [left; left; reflexivity|]. right. cbn [fst]. apply (Permutation_in _ (Permutation_sym (waiting_kset (key_of s) n (a_pending a)))). left. reflexivity.
  - destruct (get_by_id _ ip id) as [[s r]|]; [left; left; reflexivity|]. right. cbn [fst].
    apply (Permutation_in _ (Permutation_sym (waiting_kset (worker_key (WId l ip id)) n (a_pending a)))). left. reflexivity.
Qed.
Lemma arun_busy evs : forall a, busy a -> Forall healthy evs -> busy (fst (arun a evs)) /\
  forall n, (In n (waiting (a_pending a)) \/ Exists (stream_ask n) evs) -> In n (answered (snd (arun a evs))) \/ In n (waiting (a_pending (fst (arun a evs)))).
Proof.
  induction evs as [|ev evs IH]; intros a B H; cbn [arun].
  - split; [exact B|]. intros n [X|X]; [right; exact X|inversion X].
  - inversion H as [|? ? H1 H2]; subst. pose proof (astep_busy a ev B H1) as B1. pose proof (astep_waiting a ev) as W. pose proof (astep_asked a ev) as Q.
    destruct (astep a ev) as [a1 r1]. cbn [fst snd] in *. destruct (IH a1 B1 H2) as [B2 K]. destruct (arun a1 evs) as [a2 r2]. cbn [fst snd] in *. split; [exact B2|].
    intros n X. rewrite answered_app.
    assert (Y : In n (answered r1) \/ In n (waiting (a_pending a1)) \/ Exists (stream_ask n) evs).
    { destruct X as [X|X]; [destruct (W n B H1 X); auto|]. inversion X as [? ? Z|? ? Z]; subst; [destruct (Q n Z); auto|auto]. }
    destruct Y as [Y|Y]; [left; apply in_or_app; auto|]. destruct (K n Y) as [Z|Z]; [left; apply in_or_app; auto|right; exact Z].
Qed.
Lemma arun_not_lost evs n : Forall healthy evs -> Exists (stream_ask n) evs ->
  In n (answered (snd (arun new_actor evs))) \/ exists w, In w (a_workers (fst (arun new_actor evs))) /\ In n (pending_of (fst (arun new_actor evs)) (worker_key w)).
Proof.
  intros H X. destruct (arun_busy evs new_actor busy_new H) as [B K]. destruct (K n (or_intror X)) as [Y|Y]; [left; exact Y|right].
  apply (in_waiting n _ (b_nodup _ B)) in Y as (k & l & E & Hi). destruct (b_worker _ B k l E) as (w & A & C); [intros ->; destruct Hi|].
  exists w. split; [exact A|]. unfold pending_of. rewrite C, E. exact Hi.
Qed.
(* workers only grow by asking, and every end takes one away *)
Lemma done_workers a i w o : nth_error (a_workers a) i = Some w -> a_workers (fst (astep a (Done i o))) = del_nth i (a_workers a).
Proof.
  intros E. cbn [astep]. rewrite E. unfold worker_result. destruct o as [| |rest rcid lib sch]; cbn [fst a_workers]; try reflexivity.
  destruct (put_plan _ _ _ _ _) as [[xs c'] r]. reflexivity.
Qed.
Lemma drain os : forall a, List.length (a_workers a) = List.length os -> a_workers (fst (arun a (map (Done 0) os))) = [].
Proof.
  induction os as [|o os IH]; intros a H; cbn [map arun].
  - destruct (a_workers a) eqn:E; [exact E|discriminate H].
  - destruct (a_workers a) as [|w ws] eqn:E; [discriminate H|]. pose proof (done_workers a 0 w o) as D. rewrite E in D. specialize (D eq_refl). cbn [del_nth] in D.
    destruct (astep a (Done 0 o)) as [a1 r1]. cbn [fst] in D. specialize (IH a1). rewrite D in IH. specialize (IH ltac:(cbn in H; lia)). destruct (arun a1 (map (Done 0) os)) as [a2 r2]. exact IH.
Qed.

(* ---- the cache under the actor only grows ---- *)
Record good (c : cache) (dk : disk) : Prop := {
  g_cid : forall cid r, sget cid (by_cid c) = Some r -> r = YRef cid cid /\
          exists e l, sget cid dk = Some e /\ en_subs e = Some (Full l) /\ forall s, In s l -> kget (key_of s) (by_info c) <> None;
  g_dir : forall cid, sget cid (by_cid c) = None -> sget cid dk = None;
  g_info : forall k r, kget k (by_info c) = Some r -> sget (yr_cid r) (by_cid c) = Some r;
  g_id : forall s, kget (key_of s) (by_info c) <> None -> iget (id_of s) (by_id c) <> None;
  g_ids : forall i s, iget i (by_id c) = Some s -> id_of s = i }.
Record grows (c c' : cache) : Prop := {
  gr_cid : forall cid r, sget cid (by_cid c) = Some r -> sget cid (by_cid c') = Some r;
  gr_info : forall k, kget k (by_info c) <> None -> kget k (by_info c') <> None;
  gr_id : forall i, iget i (by_id c) <> None -> iget i (by_id c') <> None }.
Lemma grows_refl c : grows c c.
Proof. constructor; auto. Qed.
Lemma grows_trans a b c : grows a b -> grows b c -> grows a c.
Proof. intros [A1 A2 A3] [B1 B2 B3]. constructor; auto. Qed.
Lemma good_new : good new_cache [].
Proof. constructor; cbn; try reflexivity; try discriminate; intros s H; congruence. Qed.
Lemma sget_sset {V} k k' (v : V) m : sget k (sset k' v m) = if String.eqb k k' then Some v else sget k m.
Proof. apply (mget_mset _ seqb_spec). Qed.
Lemma kget_kset {V} k k' (v : V) m : kget k (kset k' v m) = if skey_eqb k k' then Some v else kget k m.
Proof. apply (mget_mset _ skey_eqb_spec). Qed.
Lemma iget_iset {V} k k' (v : V) m : iget k (iset k' v m) = if id_eqb k k' then Some v else iget k m.
Proof. apply (mget_mset _ id_eqb_spec). Qed.
Lemma id_of_key a b : key_of a = key_of b -> id_of a = id_of b.
Proof. unfold key_of, id_of. congruence. Qed.
Lemma put_good c dk s lib sch : good c dk ->
  let '(xs, c', r) := put_plan c dk s lib sch in
  good c' (do_steps dk xs) /\ grows c c' /\ r = Some (YRef (yl_cid lib) (yl_cid lib)) /\
  sget (yl_cid lib) (by_cid c') = Some (YRef (yl_cid lib) (yl_cid lib)) /\ kget (key_of s) (by_info c') <> None.
Proof.
  intros G. unfold put_plan. destruct (sget (yl_cid lib) (by_cid c)) as [r|] eqn:Ec.
  - destruct (g_cid _ _ G _ _ Ec) as (-> & e & l & He & Hl & Hk). destruct (kget (key_of s) (by_info c)) as [r'|] eqn:Ek.
    + cbn. split; [exact G|]. split; [apply grows_refl|]. split; [reflexivity|]. split; [exact Ec|congruence].
    + assert (Hd : forall s', In s' l -> key_of s' <> key_of s) by (intros s' Hs E; apply (Hk s' Hs); rewrite E; exact Ek).
      destruct (append_result dk (yl_cid lib) l s e He Hl Hd) as [A1 A2]. rewrite A1. cbv beta iota. rewrite A2. unfold index_sub.
      assert (K : kget (key_of s) (kset (key_of s) (YRef (yl_cid lib) (yl_cid lib)) (by_info c)) = Some (YRef (yl_cid lib) (yl_cid lib))).
      { rewrite kget_kset. destruct (skey_eqb_spec (key_of s) (key_of s)); congruence. }
      split; [|split; [|split; [reflexivity|split; [exact Ec|cbn [by_info]; congruence]]]].
      * constructor; cbn [by_cid by_info by_id].
        -- intros cid r E. destruct (g_cid _ _ G _ _ E) as (-> & e1 & l1 & H1 & H2 & H3). split; [reflexivity|]. rewrite sget_sset.
           destruct (seqb_spec cid (yl_cid lib)) as [->|Ne].
           ++ eexists; eexists. split; [reflexivity|]. split; [reflexivity|]. intros x Hx. apply in_app_or in Hx as [Hx|[<-|[]]]; [|congruence].
              rewrite kget_kset. destruct (skey_eqb (key_of x) (key_of s)); [discriminate|]. apply Hk. exact Hx.
           ++ exists e1, l1. split; [exact H1|]. split; [exact H2|]. intros x Hx. rewrite kget_kset. destruct (skey_eqb (key_of x) (key_of s)); [discriminate|]. apply H3. exact Hx.
        -- intros cid E. rewrite sget_sset. destruct (seqb_spec cid (yl_cid lib)) as [->|Ne]; [congruence|]. exact (g_dir _ _ G _ E).
        -- intros k r. rewrite kget_kset. destruct (skey_eqb k (key_of s)); [intros X; injection X as <-; exact Ec|]. apply (g_info _ _ G).
        -- intros x. rewrite kget_kset, iget_iset. destruct (id_eqb_spec (id_of x) (id_of s)); [discriminate|].
           destruct (skey_eqb_spec (key_of x) (key_of s)) as [E|E]; [apply id_of_key in E; congruence|]. apply (g_id _ _ G).
        -- intros i x. rewrite iget_iset. destruct (id_eqb_spec i (id_of s)) as [->|E]; [congruence|]. apply (g_ids _ _ G).
      * constructor; cbn [by_cid by_info by_id]; [auto| |].
        -- intros k E. rewrite kget_kset. destruct (skey_eqb k (key_of s)); [discriminate|exact E].
        -- intros i E. rewrite iget_iset. destruct (id_eqb i (id_of s)); [discriminate|exact E].
  - pose proof (g_dir _ _ G _ Ec) as Hd. destruct (save_fresh dk (yl_cid lib) lib sch [s] Hd eq_refl) as [A1 A2].
    destruct (save_plan dk (yl_cid lib) lib sch [s]) as [xs ok]. cbn [fst snd] in *. subst ok. cbv beta iota. rewrite A2. set (r0 := YRef (yl_cid lib) (yl_cid lib)).
    assert (C : forall cid r, sget cid (by_cid c) = Some r -> sget cid (sset (yl_cid lib) r0 (by_cid c)) = Some r).
    { intros cid r E. rewrite sget_sset. destruct (seqb_spec cid (yl_cid lib)) as [->|Ne]; [congruence|exact E]. }
    assert (C0 : sget (yl_cid lib) (sset (yl_cid lib) r0 (by_cid c)) = Some r0).
    { rewrite sget_sset. destruct (seqb_spec (yl_cid lib) (yl_cid lib)); congruence. }
    split; [|split; [|split; [reflexivity|split; [exact C0|]]]].
    + constructor; cbn [by_cid by_info by_id].
      * intros cid r. rewrite sget_sset. destruct (seqb_spec cid (yl_cid lib)) as [->|Ne].
        -- intros X. injection X as <-. split; [reflexivity|]. rewrite sget_sset. destruct (seqb_spec (yl_cid lib) (yl_cid lib)); [|congruence].
           eexists; eexists. split; [reflexivity|]. split; [reflexivity|]. intros x [<-|[]]. rewrite kget_kset. destruct (skey_eqb_spec (key_of s) (key_of s)); congruence.
        -- intros E. destruct (g_cid _ _ G _ _ E) as (-> & e1 & l1 & H1 & H2 & H3). split; [reflexivity|]. exists e1, l1. rewrite sget_sset.
           destruct (seqb_spec cid (yl_cid lib)); [congruence|]. split; [exact H1|]. split; [exact H2|]. intros x Hx. rewrite kget_kset.
           destruct (skey_eqb (key_of x) (key_of s)); [discriminate|]. apply H3. exact Hx.
      * intros cid. rewrite !sget_sset. destruct (String.eqb cid (yl_cid lib)); [discriminate|]. apply (g_dir _ _ G).
      * intros k r. rewrite kget_kset. destruct (skey_eqb k (key_of s)); [intros X; injection X as <-; exact C0|]. intros E. apply C. exact (g_info _ _ G _ _ E).
      * intros x. rewrite kget_kset, iget_iset. destruct (id_eqb_spec (id_of x) (id_of s)); [discriminate|].
        destruct (skey_eqb_spec (key_of x) (key_of s)) as [E|E]; [apply id_of_key in E; congruence|]. apply (g_id _ _ G).
      * intros i x. rewrite iget_iset. destruct (id_eqb_spec i (id_of s)) as [->|E]; [congruence|]. apply (g_ids _ _ G).
    + constructor; cbn [by_cid by_info by_id]; [exact C| |].
      * intros k E. rewrite kget_kset. destruct (skey_eqb k (key_of s)); [discriminate|exact E].
      * intros i E. rewrite iget_iset. destruct (id_eqb i (id_of s)); [discriminate|exact E].
    + cbn [by_info]. rewrite kget_kset. destruct (skey_eqb_spec (key_of s) (key_of s)); congruence.
Qed.

Lemma worker_result_cache a w o : good (a_cache a) (a_disk a) ->
  good (a_cache (fst (worker_result a w o))) (a_disk (fst (worker_result a w o))) /\ grows (a_cache a) (a_cache (fst (worker_result a w o))) /\
  (forall rest rcid lib sch, o = Fetched rest rcid lib sch -> kget (key_of (result_info w o)) (by_info (a_cache (fst (worker_result a w o)))) <> None) /\
  (forall n s x, In (n, s, Some x) (snd (worker_result a w o)) -> sget (yr_cid x) (by_cid (a_cache (fst (worker_result a w o)))) = Some x).
Proof.
  intros G. unfold worker_result. destruct o as [| |rest rcid lib sch].
  - cbn. split; [exact G|]. split; [apply grows_refl|]. split; [discriminate|]. intros n s x [].
  - cbn [fst snd a_cache a_disk]. split; [exact G|]. split; [apply grows_refl|]. split; [discriminate|]. intros n s x H. apply in_map_iff in H as (? & X & _). discriminate X.
  - pose proof (put_good (a_cache a) (a_disk a) (result_info w (Fetched rest rcid lib sch)) lib sch G) as P. destruct (put_plan _ _ _ _ _) as [[xs c'] r].
    destruct P as (P1 & P2 & P3 & P4 & P5). cbn [fst snd a_cache a_disk]. split; [exact P1|]. split; [exact P2|]. split; [intros; exact P5|].
    intros n s x H. apply in_map_iff in H as (? & X & _). rewrite P3 in X. injection X as _ _ <-. exact P4.
Qed.
Lemma get_by_id_some c dk ip id s r : good c dk -> get_by_id c ip id = Some (s, r) -> si_ip s = ip /\ si_id s = id /\ r = get_by_info c s.
Proof.
  intros G. unfold get_by_id. destruct (iget (ip, id) (by_id c)) as [s'|] eqn:E; [|discriminate]. intros X. injection X as <- <-. apply (g_ids _ _ G) in E. unfold id_of in E.
  split; [congruence|]. split; [congruence|reflexivity].
Qed.
Lemma astep_good a ev : good (a_cache a) (a_disk a) ->
  good (a_cache (fst (astep a ev))) (a_disk (fst (astep a ev))) /\ grows (a_cache a) (a_cache (fst (astep a ev))) /\
  (forall n s x, In (n, s, Some x) (snd (astep a ev)) -> sget (yr_cid x) (by_cid (a_cache (fst (astep a ev)))) = Some x).
Proof.
  intros G. destruct ev as [m s|m l ip id|m s o|m l ip id o|m cid|i o|closed]; cbn [astep].
  - destruct (get_by_info (a_cache a) s) as [r|] eqn:E; cbn [fst snd]; (split; [exact G|]; split; [apply grows_refl|]).
    + intros n s' x [X|[]]. injection X as _ _ <-. exact (g_info _ _ G _ _ E).
    + intros n s' x [].
  - destruct (get_by_id (a_cache a) ip id) as [[s r]|] eqn:E; cbn [fst snd]; (split; [exact G|]; split; [apply grows_refl|]).
    + intros n s' x [X|[]]. injection X as _ _ ->. apply (get_by_id_some _ _ _ _ _ _ G) in E as (_ & _ & E). symmetry in E. exact (g_info _ _ G _ _ E).
    + intros n s' x [].
  - assert (X : let q := match get_by_info (a_cache a) s with Some _ => (a, []) | None => worker_result a (WInfo s) (one_outcome o) end in
                good (a_cache (fst q)) (a_disk (fst q)) /\ grows (a_cache a) (a_cache (fst q)) /\
                (forall n s x, In (n, s, Some x) (snd q) -> sget (yr_cid x) (by_cid (a_cache (fst q))) = Some x)).
    { cbv zeta. destruct (get_by_info (a_cache a) s) as [r|] eqn:E; cbn [fst snd].
      - split; [exact G|]. split; [apply grows_refl|]. intros n s' x [].
      - destruct (worker_result_cache a (WInfo s) (one_outcome o) G) as (A & B & _ & D). auto. }
    cbv zeta in X. destruct (match get_by_info (a_cache a) s with Some _ => (a, []) | None => worker_result a (WInfo s) (one_outcome o) end) as [a' rs]. cbn [fst snd] in *.
    destruct X as (X1 & X2 & X3). split; [exact X1|]. split; [exact X2|]. intros n s' x H. apply in_app_or in H as [H|[H|[]]]; [exact (X3 _ _ _ H)|].
    injection H as _ _ H. exact (g_info _ _ X1 _ _ H).
  - destruct (get_by_id (a_cache a) ip id) as [[s r]|] eqn:E; cbn [fst snd].
    + split; [exact G|]. split; [apply grows_refl|]. intros n s' x [X|[]]. injection X as _ _ ->.
      apply (get_by_id_some _ _ _ _ _ _ G) in E as (_ & _ & E). symmetry in E. exact (g_info _ _ G _ _ E).
    + destruct (worker_result_cache a (WId l ip id) (one_outcome o) G) as (A & B & _ & D). auto.
  - cbn [fst snd]. split; [exact G|]. split; [apply grows_refl|]. intros n s x [X|[]]. injection X as _ _ X. unfold get_by_cid in X.
    destruct (g_cid _ _ G _ _ X) as [-> _]. exact X.
  - destruct (nth_error (a_workers a) i) as [w|]; cbn [fst snd]; [|split; [exact G|]; split; [apply grows_refl|]; intros n s x []].
    destruct (worker_result_cache (Actor (a_cache a) (a_disk a) (a_pending a) (del_nth i (a_workers a))) w o G) as (A & B & _ & D). auto.
  - cbn [fst snd a_cache a_disk]. split; [exact G|]. split; [apply grows_refl|]. intros n s x [].
Qed.
Lemma arun_good evs : forall a, good (a_cache a) (a_disk a) ->
  good (a_cache (fst (arun a evs))) (a_disk (fst (arun a evs))) /\ grows (a_cache a) (a_cache (fst (arun a evs))) /\
  (forall n s x, In (n, s, Some x) (snd (arun a evs)) -> sget (yr_cid x) (by_cid (a_cache (fst (arun a evs)))) = Some x).
Proof.
  induction evs as [|ev evs IH]; intros a G; cbn [arun].
  - cbn [fst snd]. split; [exact G|]. split; [apply grows_refl|]. intros n s x [].
  - destruct (astep_good a ev G) as (A & B & C). destruct (astep a ev) as [a1 r1]. cbn [fst snd] in *. destruct (IH a1 A) as (A' & B' & C').
    destruct (arun a1 evs) as [a2 r2]. cbn [fst snd] in *. split; [exact A'|]. split; [exact (grows_trans _ _ _ B B')|].
    intros n s x H. apply in_app_or in H as [H|H]; [|exact (C' _ _ _ H)]. apply (gr_cid _ _ B'). exact (C _ _ _ H).
Qed.

(* ---- one fetch in flight ---- *)
Definition hit (c : cache) (w : worker) : Prop :=
  match w with WInfo s => kget (key_of s) (by_info c) <> None | WId _ ip id => iget (ip, id) (by_id c) <> None end.
Definition real_worker (w : worker) : Prop := match w with WInfo s => si_cid s <> "EMPTY"%string | WId _ _ _ => True end.
Record single (a : actor) : Prop := {
  s_good : good (a_cache a) (a_disk a);
  s_nodup : NoDup (map worker_key (a_workers a));
  s_wait : forall w, In w (a_workers a) -> pending_of a (worker_key w) <> [] \/ hit (a_cache a) w;
  s_real : forall w, In w (a_workers a) -> real_worker w }.
Lemma single_new : single new_actor.
Proof. constructor; cbn; [exact good_new|constructor|tauto|tauto]. Qed.
Lemma hit_same c w w' : worker_key w = worker_key w' -> real_worker w -> real_worker w' -> hit c w -> hit c w'.
Proof.
  destruct w as [s|l ip id], w' as [s'|l' ip' id']; cbn [worker_key real_worker hit]; intros E R R' H.
  - rewrite <- E. exact H.
  - exfalso. apply R. unfold key_of, empty_info in E. cbn in E. congruence.
  - exfalso. apply R'. unfold key_of, empty_info in E. cbn in E. congruence.
  - unfold key_of, empty_info in E. cbn in E. congruence.
Qed.
Lemma hit_grows c c' w : grows c c' -> hit c w -> hit c' w.
Proof. intros G. destruct w; cbn [hit]; [apply (gr_info _ _ G)|apply (gr_id _ _ G)]. Qed.
Lemma enqueue_single a n w : single a -> real_worker w -> ~ hit (a_cache a) w -> single (enqueue a n w).
Proof.
  intros [S1 S2 S3 S4] R H. assert (P : forall k, pending_of (enqueue a n w) k <> [] <-> k = worker_key w \/ pending_of a k <> []).
  { intros k. unfold enqueue, pending_of at 1. cbn [a_pending]. rewrite kget_kset. destruct (skey_eqb_spec k (worker_key w)) as [->|E].
    - split; [auto|]. intros _ X. apply app_eq_nil in X as [_ X]. discriminate X.
    - fold (pending_of a k). split; [auto|]. intros [X|X]; [congruence|exact X]. }
  assert (W : a_workers (enqueue a n w) = match pending_of a (worker_key w) with [] => a_workers a ++ [w] | _ => a_workers a end) by reflexivity.
  assert (K : a_cache (enqueue a n w) = a_cache a /\ a_disk (enqueue a n w) = a_disk a) by (split; reflexivity). destruct K as [K1 K2].
  destruct (pending_of a (worker_key w)) as [|m l] eqn:El; constructor; rewrite ?K1, ?K2, ?W; try assumption.
  - rewrite map_app. cbn [map]. apply (Permutation_NoDup (Permutation_cons_append _ _)). constructor; [|exact S2].
    intros X. apply in_map_iff in X as (w' & X1 & X2). destruct (S3 w' X2) as [Y|Y]; [rewrite X1 in Y; congruence|]. exact (H (hit_same _ _ _ X1 (S4 _ X2) R Y)).
  - intros w' X. rewrite P. apply in_app_or in X as [X|[<-|[]]]; [|auto]. destruct (S3 w' X); auto.
  - intros w' X. apply in_app_or in X as [X|[<-|[]]]; auto.
  - intros w' X. rewrite P. destruct (S3 w' X); auto.
Qed.
Lemma del_nth_map {A B} (f : A -> B) l : forall i, map f (del_nth i l) = del_nth i (map f l).
Proof. induction l as [|x l IH]; intros [|i]; cbn; try reflexivity. now rewrite IH. Qed.
Lemma in_del {A} (l : list A) : forall i x, In x (del_nth i l) -> In x l.
Proof. induction l as [|y l IH]; intros [|i] x H; cbn in *; [destruct H|destruct H|auto|]. destruct H as [H|H]; eauto. Qed.
Lemma NoDup_del {A} (l : list A) : forall i, NoDup l -> NoDup (del_nth i l) /\ forall w, nth_error l i = Some w -> ~ In w (del_nth i l).
Proof.
  induction l as [|y l IH]; intros [|i] H; cbn; (inversion H as [|? ? Hx Hn]; subst || idtac).
  - split; [constructor|]. intros w X. discriminate X.
  - split; [constructor|]. intros w X. discriminate X.
  - split; [exact Hn|]. intros w X. injection X as <-. exact Hx.
  - destruct (IH i Hn) as [A1 A2]. split; [constructor; [|exact A1]; intros X; exact (Hx (in_del _ _ _ X))|].
    intros w X [Y|Y]; [subst; exact (Hx (nth_error_In _ _ X))|exact (A2 w X Y)].
Qed.
Lemma key_id s s' : key_of s = key_of s' -> si_cid s = si_cid s'.
Proof. unfold key_of. congruence. Qed.
Lemma done_single a i o : single a -> single (fst (astep a (Done i o))).
Proof.
  intros S. pose proof (astep_good a (Done i o) (s_good _ S)) as (G1 & G2 & _). destruct S as [S1 S2 S3 S4]. constructor; [exact G1| | |].
  all: cbn [astep] in *; destruct (nth_error (a_workers a) i) as [w|] eqn:Ew; [|assumption].
  all: set (a1 := Actor (a_cache a) (a_disk a) (a_pending a) (del_nth i (a_workers a))) in *.
  all: assert (Wk : a_workers (fst (worker_result a1 w o)) = del_nth i (a_workers a))
    by (unfold worker_result; destruct o as [| |rest rcid lib sch]; [reflexivity|reflexivity|]; destruct (put_plan _ _ _ _ _) as [[xs c'] r]; reflexivity).
  all: rewrite Wk.
  - rewrite del_nth_map. apply NoDup_del. exact S2.
  - intros w2 H2. pose proof (in_del _ _ _ H2) as H2'. destruct (S3 w2 H2') as [H|H]; [|right; exact (hit_grows _ _ _ G2 H)].
    assert (Ne : worker_key w2 <> worker_key w).
    { intros E. destruct (NoDup_del _ i S2) as [_ X]. apply (X (worker_key w)); [rewrite nth_error_map, Ew; reflexivity|].
      rewrite <- del_nth_map. rewrite <- E. apply in_map. exact H2. }
    destruct o as [| |rest rcid lib sch].
    + left. exact H.
    + left. unfold worker_result, pending_of in *. cbn [fst a_pending]. unfold kget, krem in *. rewrite (mget_mrem _ skey_eqb_spec).
      destruct (skey_eqb_spec (worker_key w2) (key_of (result_info w Failed))) as [E|E]; [|exact H]. exfalso. apply Ne. rewrite E. destruct w; reflexivity.
    + destruct (worker_result_cache a1 w (Fetched rest rcid lib sch) S1) as (_ & _ & Kn & _). specialize (Kn _ _ _ _ eq_refl).
      pose proof (g_id _ _ G1 _ Kn) as Ki. revert G1 G2 Kn Ki Wk. set (s := result_info w _). unfold worker_result. fold s. destruct (put_plan _ _ _ _ _) as [[xs c'] r]. cbn [fst a_cache a_disk a_pending].
      intros G1 G2 Kn Ki Wk. unfold pending_of at 1. cbn [a_pending]. unfold kget at 1, krem. rewrite !(mget_mrem _ skey_eqb_spec).
      destruct (skey_eqb_spec (worker_key w2) (key_of (empty_info (si_local s) (si_ip s) (si_id s)))) as [E|E].
      * right. destruct w2 as [s2|l2 ip2 id2]; cbn [worker_key] in E.
        -- exfalso. apply (S4 _ H2'). exact (key_id _ _ E).
        -- cbn [hit]. unfold key_of, empty_info in E. cbn in E. replace (ip2, id2) with (id_of s); [exact Ki|]. unfold id_of. congruence.
      * destruct (skey_eqb_spec (worker_key w2) (key_of s)) as [E2|E2].
        -- right. destruct w2 as [s2|l2 ip2 id2]; cbn [worker_key hit] in *; [rewrite E2; exact Kn|]. unfold key_of, empty_info in E2. cbn in E2.
           replace (ip2, id2) with (id_of s); [exact Ki|]. unfold id_of. congruence.
        -- left. exact H.
  - intros w2 H2. exact (S4 _ (in_del _ _ _ H2)).
Qed.
Lemma astep_single a ev : single a -> streaming ev -> real ev -> single (fst (astep a ev)).
Proof.
  intros S H R. destruct ev as [m s|m l ip id|m s o|m l ip id o|m cid|i o|closed]; try contradiction.
  - cbn [astep]. destruct (get_by_info (a_cache a) s) as [r|] eqn:E; [exact S|]. apply enqueue_single; [exact S|exact R|]. cbn [hit]. intros X. exact (X E).
  - cbn [astep]. destruct (get_by_id (a_cache a) ip id) as [[s r]|] eqn:E; [exact S|]. apply enqueue_single; [exact S|exact I|]. cbn [hit]. intros X. apply X.
    unfold get_by_id in E. destruct (iget (ip, id) (by_id (a_cache a))); [discriminate E|reflexivity].
  - exact S.
  - apply done_single. exact S.
Qed.
Lemma arun_single evs : forall a, single a -> Forall streaming evs -> Forall real evs -> single (fst (arun a evs)).
Proof.
  induction evs as [|ev evs IH]; intros a S H R; cbn [arun]; [exact S|]. inversion H; inversion R; subst. pose proof (astep_single a ev S) as X.
  destruct (astep a ev) as [a1 r1]. cbn [fst] in X. specialize (IH a1 ltac:(auto) ltac:(assumption) ltac:(assumption)). destruct (arun a1 evs) as [a2 r2]. exact IH.
Qed.

(* ---- a panic ---- *)
Definition sub_worker (w : worker) : Prop := exists s, w = WInfo s.
Record stuck (s : sinfo) (a : actor) : Prop := {
  k_wait : pending_of a (key_of s) <> [];
  k_miss : get_by_info (a_cache a) s = None;
  k_none : forall w, In w (a_workers a) -> worker_key w <> key_of s;
  k_sub : forall w, In w (a_workers a) -> sub_worker w }.
Lemma by_sub_workers evs : forall a, (forall w, In w (a_workers a) -> sub_worker w) -> Forall by_subscription evs -> forall w, In w (a_workers (fst (arun a evs))) -> sub_worker w.
Proof.
  induction evs as [|ev evs IH]; intros a A H; cbn [arun]; [exact A|]. inversion H as [|? ? H1 H2]; subst.
  assert (X : forall w, In w (a_workers (fst (astep a ev))) -> sub_worker w).
  { destruct ev as [m s|m l ip id|m s o|m l ip id o|m cid|i o|closed]; try contradiction; cbn [astep].
    - destruct (get_by_info (a_cache a) s); [exact A|]. unfold enqueue. cbn [fst a_workers]. destruct (pending_of a (worker_key (WInfo s))); [|exact A].
      intros w Hw. apply in_app_or in Hw as [Hw|[<-|[]]]; [auto|exists s; reflexivity].
    - exact A.
    - destruct (nth_error (a_workers a) i) as [w|] eqn:Ew; [|exact A]. intros w' Hw. apply A. apply (in_del _ i). pose proof (done_workers a i w o Ew) as D. cbn [astep] in D. rewrite Ew in D. rewrite D in Hw. exact Hw. }
  destruct (astep a ev) as [a1 r1]. cbn [fst] in X. specialize (IH a1 X H2). destruct (arun a1 evs) as [a2 r2]. exact IH.
Qed.

Lemma stuck_step s a ev : stuck s a -> si_cid s <> "EMPTY"%string -> by_subscription ev ->
  stuck s (fst (astep a ev)) /\ incl (pending_of a (key_of s)) (pending_of (fst (astep a ev)) (key_of s)) /\
  (forall n s', ev = AskInfo n s' -> key_of s' = key_of s -> In n (pending_of (fst (astep a ev)) (key_of s))).
Proof.
  intros [K1 K2 K3 K4] R H. destruct ev as [m s'|m l ip id|m s' o|m l ip id o|m cid|i o|closed]; try contradiction; cbn [astep].
  - destruct (get_by_info (a_cache a) s') as [r|] eqn:E; cbn [fst].
    + split; [constructor; assumption|]. split; [apply incl_refl|]. intros n s2 X Y. injection X as _ ->. unfold get_by_info in *. rewrite Y in E. congruence.
    + assert (P : pending_of (enqueue a m (WInfo s')) (key_of s) = if skey_eqb (key_of s) (key_of s') then pending_of a (key_of s') ++ [m] else pending_of a (key_of s)).
      { unfold enqueue, pending_of at 1. cbn [a_pending worker_key]. rewrite kget_kset. destruct (skey_eqb (key_of s) (key_of s')); reflexivity. }
      split; [constructor|split].
      * rewrite P. destruct (skey_eqb (key_of s) (key_of s')); [|exact K1]. intros X. apply app_eq_nil in X as [_ X]. discriminate X.
      * exact K2.
      * unfold enqueue. cbn [a_workers worker_key]. intros w. destruct (pending_of a (key_of s')) eqn:El; [|apply K3]. intros X. apply in_app_or in X as [X|[<-|[]]]; [exact (K3 _ X)|].
        cbn [worker_key]. intros Y. rewrite Y in El. exact (K1 El).
      * unfold enqueue. cbn [a_workers]. intros w. destruct (pending_of a (worker_key (WInfo s'))); [|apply K4]. intros X. apply in_app_or in X as [X|[<-|[]]]; [exact (K4 _ X)|]. exists s'. reflexivity.
      * rewrite P. destruct (skey_eqb_spec (key_of s) (key_of s')) as [X|X]; [|apply incl_refl]. rewrite X. apply incl_appl, incl_refl.
      * intros n s2 X Y. injection X as -> ->. rewrite P, Y. destruct (skey_eqb_spec (key_of s) (key_of s)); [|congruence]. apply in_or_app. right. left. reflexivity.
  - cbn [fst]. split; [constructor; assumption|]. split; [apply incl_refl|]. intros n s2 X. discriminate X.
  - destruct (nth_error (a_workers a) i) as [w|] eqn:Ew; cbn [fst].
    2: { split; [constructor; assumption|]. split; [apply incl_refl|]. intros n s2 X. discriminate X. }
    pose proof (done_workers a i w o Ew) as D. cbn [astep] in D. rewrite Ew in D.
    pose proof (nth_error_In _ _ Ew) as Hw. destruct (K4 w Hw) as [s2 ->]. pose proof (K3 _ Hw) as Ne. cbn [worker_key] in Ne.
    assert (P : pending_of (fst (worker_result (Actor (a_cache a) (a_disk a) (a_pending a) (del_nth i (a_workers a))) (WInfo s2) o)) (key_of s) = pending_of a (key_of s) /\
                get_by_info (a_cache (fst (worker_result (Actor (a_cache a) (a_disk a) (a_pending a) (del_nth i (a_workers a))) (WInfo s2) o))) s = None).
    { unfold worker_result. destruct o as [| |rest rcid lib sch]; cbn [result_info].
      - split; [reflexivity|exact K2].
      - cbn [fst a_cache]. split; [|exact K2]. unfold pending_of. cbn [a_pending]. unfold kget, krem. rewrite (mget_mrem _ skey_eqb_spec).
        destruct (skey_eqb_spec (key_of s) (key_of s2)); [congruence|reflexivity].
      - cbn [a_cache a_disk]. assert (Q : get_by_info (snd (fst (put_plan (a_cache a) (a_disk a) s2 lib sch))) s = None).
        { unfold put_plan, get_by_info in *. destruct (sget (yl_cid lib) (by_cid (a_cache a))) as [r|].
          - destruct (kget (key_of s2) (by_info (a_cache a))); [exact K2|]. destruct (append_plan (a_disk a) r s2) as [xs ok]. destruct ok; [|exact K2].
            cbn [fst snd index_sub by_info]. rewrite kget_kset. destruct (skey_eqb_spec (key_of s) (key_of s2)); [congruence|exact K2].
          - destruct (save_plan (a_disk a) (yl_cid lib) lib sch [s2]) as [xs ok]. destruct ok; [|exact K2].
            cbn [fst snd by_info]. rewrite kget_kset. destruct (skey_eqb_spec (key_of s) (key_of s2)); [congruence|exact K2]. }
        destruct (put_plan (a_cache a) (a_disk a) s2 lib sch) as [[xs c'] r]. cbn [fst snd a_cache] in *. split; [|exact Q].
        unfold pending_of. cbn [a_pending]. unfold kget, krem. rewrite !(mget_mrem _ skey_eqb_spec).
        destruct (skey_eqb_spec (key_of s) (key_of (empty_info (si_local s2) (si_ip s2) (si_id s2)))) as [X|X]; [exfalso; apply R; exact (key_id _ _ X)|].
        destruct (skey_eqb_spec (key_of s) (key_of s2)); [congruence|reflexivity]. }
    destruct P as [P1 P2]. split; [constructor|split].
    + rewrite P1. exact K1.
    + exact P2.
    + rewrite D. intros w X. exact (K3 _ (in_del _ _ _ X)).
    + rewrite D. intros w X. exact (K4 _ (in_del _ _ _ X)).
    + rewrite P1. apply incl_refl.
    + intros n s3 X. discriminate X.
Qed.
Lemma stuck_run s evs : forall a, stuck s a -> si_cid s <> "EMPTY"%string -> Forall by_subscription evs ->
  stuck s (fst (arun a evs)) /\ incl (pending_of a (key_of s)) (pending_of (fst (arun a evs)) (key_of s)) /\
  (forall n s', In (AskInfo n s') evs -> key_of s' = key_of s -> In n (pending_of (fst (arun a evs)) (key_of s))).
Proof.
  induction evs as [|ev evs IH]; intros a K R H; cbn [arun]; [split; [exact K|]; split; [apply incl_refl|]; intros n s' []|].
  inversion H as [|? ? H1 H2]; subst. destruct (stuck_step s a ev K R H1) as (A1 & A2 & A3). destruct (astep a ev) as [a1 r1]. cbn [fst] in *.
  destruct (IH a1 A1 R H2) as (B1 & B2 & B3). destruct (arun a1 evs) as [a2 r2]. cbn [fst] in *. split; [exact B1|]. split; [exact (incl_tran A2 B2)|].
  intros n s' [X|X] Y; [apply B2; exact (A3 n s' X Y)|exact (B3 n s' X Y)].
Qed.
Lemma kget_waiting k l n m : kget k m = Some l -> In n l -> In n (waiting m).
Proof. intros H1 H2. apply in_flat_map. exists (k, l). split; [exact (mget_In _ skey_eqb_spec _ _ _ H1)|exact H2]. Qed.
Lemma waits_unanswered evs n k : NoDup (flat_map asks evs) -> In n (pending_of (fst (arun new_actor evs)) k) -> ~ In n (answered (snd (arun new_actor evs))).
Proof.
  intros Hn H X. destruct (arun_kept evs new_actor) as [rest P]. cbn [new_actor a_pending waiting flat_map] in P. rewrite app_nil_r in P.
  apply (Permutation_NoDup P) in Hn. unfold pending_of in H. destruct (kget k (a_pending (fst (arun new_actor evs)))) as [l|] eqn:E; [|destruct H].
  pose proof (kget_waiting _ _ _ _ E H) as Hw. apply in_split in X as (l1 & l2 & X). unfold new_actor in *. rewrite X in Hn. rewrite <- app_assoc in Hn. cbn [app] in Hn.
  apply NoDup_remove_2 in Hn. apply Hn. apply in_or_app. right. apply in_or_app. right. apply in_or_app. left. exact Hw.
Qed.
Lemma panic_stuck evs1 evs2 i s : Forall by_subscription evs1 -> Forall real evs1 -> Forall by_subscription evs2 ->
  nth_error (a_workers (fst (arun new_actor evs1))) i = Some (WInfo s) -> get_by_info (a_cache (fst (arun new_actor evs1))) s = None ->
  NoDup (flat_map asks (evs1 ++ Done i Panicked :: evs2)) ->
  (forall n s', In (AskInfo n s') evs2 -> same_subscription s' s -> ~ In n (answered (snd (arun new_actor (evs1 ++ Done i Panicked :: evs2))))) /\
  (forall s', In (WInfo s') (a_workers (fst (arun new_actor (evs1 ++ Done i Panicked :: evs2)))) -> ~ same_subscription s' s).
Proof.
  intros B1 R1 B2 Ew Em Hn. assert (S : single (fst (arun new_actor evs1))).
  { apply arun_single; [exact single_new| |exact R1]. eapply Forall_impl; [|exact B1]. intros [| | | | | |]; cbn; tauto. }
  assert (Wk : forall w, In w (a_workers (fst (arun new_actor evs1))) -> sub_worker w) by (apply by_sub_workers; [intros w []|exact B1]).
  set (a := fst (arun new_actor evs1)) in *. pose proof (nth_error_In _ _ Ew) as Hw. pose proof (s_real _ S _ Hw) as Rs. cbn in Rs.
  assert (K : stuck s (fst (astep a (Done i Panicked)))).
  { cbn [astep]. rewrite Ew. cbn [worker_result fst]. constructor; cbn [a_cache a_workers].
    - destruct (s_wait _ S _ Hw) as [X|X]; [exact X|]. exfalso. exact (X Em).
    - exact Em.
    - intros w Hw2 E. destruct (NoDup_del _ i (s_nodup _ S)) as [_ X]. apply (X (key_of s)); [rewrite nth_error_map, Ew; reflexivity|].
      rewrite <- del_nth_map. rewrite <- E. apply in_map. exact Hw2.
    - intros w Hw2. apply Wk. exact (in_del _ _ _ Hw2). }
  destruct (stuck_run s evs2 _ K Rs B2) as (K2 & _ & K3).
  assert (F : fst (arun new_actor (evs1 ++ Done i Panicked :: evs2)) = fst (arun (fst (astep a (Done i Panicked))) evs2)).
  { rewrite arun_app. cbn [fst]. fold a. cbn [arun]. destruct (astep a (Done i Panicked)) as [a1 r1]. cbn [fst]. destruct (arun a1 evs2). reflexivity. }
  split.
  - intros n s' X Y. apply (waits_unanswered _ _ (key_of s) Hn). rewrite F. apply (K3 n s' X). apply same_key. exact Y.
  - intros s' X Y. rewrite F in X. apply (k_none _ _ K2 _ X). apply same_key. exact Y.
Qed.

(* ---- answers name what was asked ---- *)
Definition req_key (ev : aev) (k : skey) : Prop :=
  match ev with AskInfo _ s => k = key_of s | AskId _ _ ip id => k = key_of (empty_info 0 ip id) | _ => False end.
Definition known (past : list aev) (a : actor) : Prop :=
  forall k l n, In (k, l) (a_pending a) -> In n l -> exists ev, In ev past /\ asks ev = [n] /\ req_key ev k.
Lemma known_at past a : known past a -> forall k n, In n (pending_of a k) -> exists ev, In ev past /\ asks ev = [n] /\ req_key ev k.
Proof. intros K k n. unfold pending_of. destruct (kget k (a_pending a)) as [l|] eqn:E; [|intros []]. intros H. exact (K k l n (mget_In _ skey_eqb_spec _ _ _ E) H). Qed.
Lemma in_krem k x (m : list (skey * list N)) : In x (krem k m) -> In x m.
Proof. induction m as [|[k' v] m IH]; cbn; [auto|]. destruct (skey_eqb k k'); cbn; intuition. Qed.
Lemma in_kset k v x (m : list (skey * list N)) : In x (kset k v m) -> x = (k, v) \/ In x m.
Proof. induction m as [|[k' v'] m IH]; cbn; [intuition|]. destruct (skey_eqb_spec k k') as [->|E]; cbn; intuition. Qed.
Definition fit (past : list aev) (r : resp) : Prop := exists ev, In ev past /\ asks ev = [fst (fst r)] /\ answers ev r.
Lemma worker_result_known past a w o : Forall real past -> known past a ->
  known past (fst (worker_result a w o)) /\ forall r, In r (snd (worker_result a w o)) -> fit past r.
Proof.
  intros R K. rewrite Forall_forall in R. unfold worker_result. destruct o as [| |rest rcid lib sch].
  - split; [exact K|]. intros r [].
  - cbn [fst snd]. split.
    + intros k l n. cbn [a_pending]. intros H. apply in_krem in H. exact (K _ _ _ H).
    + intros r H. apply in_map_iff in H as (n & <- & H). destruct (known_at _ _ K _ _ H) as (ev & A & B & C). exists ev. split; [exact A|]. split; [exact B|].
      destruct ev; cbn [req_key] in C; try contradiction; cbn [answers fst snd].
      * apply same_key. exact C.
      * unfold key_of, empty_info in C. cbn in C. split; congruence.
  - destruct (put_plan _ _ _ _ _) as [[xs c'] r0]. cbn [fst snd]. set (s := result_info w _). split.
    + intros k l n. cbn [a_pending]. intros H. apply in_krem, in_krem in H. exact (K _ _ _ H).
    + intros r H. apply in_map_iff in H as (n & <- & H).
      assert (X : In n (pending_of a (key_of s)) \/ In n (pending_of a (key_of (empty_info (si_local s) (si_ip s) (si_id s))))).
      { apply in_app_or in H as [H|H]; [left; exact H|]. right. unfold pending_of. unfold kget, krem in H. rewrite (mget_mrem _ skey_eqb_spec) in H.
        destruct (skey_eqb _ (key_of s)); [destruct H|exact H]. }
      destruct X as [X|X]; destruct (known_at _ _ K _ _ X) as (ev & A & B & C); exists ev; (split; [exact A|]); (split; [exact B|]);
        destruct ev; cbn [req_key] in C; try contradiction; cbn [answers fst snd].
      * apply same_key. exact C.
      * unfold key_of, empty_info in C. cbn in C. split; congruence.
      * exfalso. specialize (R _ A). cbn in R. apply R. unfold key_of, empty_info in C. cbn in C. congruence.
      * unfold key_of, empty_info in C. cbn in C. split; congruence.
Qed.
Lemma known_more past ev a : known past a -> known (past ++ [ev]) a.
Proof. intros K k l n Hl H. destruct (K k l n Hl H) as (e & A & B & C). exists e. split; [apply in_or_app; auto|auto]. Qed.
Lemma enqueue_known past ev a n w : known past a -> asks ev = [n] -> req_key ev (worker_key w) -> known (past ++ [ev]) (enqueue a n w).
Proof.
  intros K A B k l m. unfold enqueue. cbn [a_pending]. intros H Hm. apply in_kset in H as [H|H]; [|exact (known_more _ ev _ K _ _ _ H Hm)]. injection H as -> ->.
  apply in_app_or in Hm as [Hm|[<-|[]]]; [exact (known_at _ _ (known_more _ ev _ K) _ _ Hm)|]. exists ev. split; [apply in_or_app; right; left; reflexivity|]. auto.
Qed.
Lemma same_refl s : same_subscription s s.
Proof. repeat split. Qed.
Lemma astep_known past a ev : good (a_cache a) (a_disk a) -> Forall real past -> real ev -> known past a ->
  known (past ++ [ev]) (fst (astep a ev)) /\ forall r, In r (snd (astep a ev)) -> fit (past ++ [ev]) r.
Proof.
  intros G R Rv K. pose proof (known_more _ ev _ K) as K'. assert (R' : Forall real (past ++ [ev])) by (apply Forall_app; split; [exact R|repeat constructor; exact Rv]).
  assert (L : In ev (past ++ [ev])) by (apply in_or_app; right; left; reflexivity).
  destruct ev as [m s|m l ip id|m s o|m l ip id o|m cid|i o|closed]; cbn [astep].
  - destruct (get_by_info (a_cache a) s) as [r|] eqn:E; cbn [fst snd].
    + split; [exact K'|]. intros r' [<-|[]]. eexists. split; [exact L|]. split; [reflexivity|]. apply same_refl.
    + split; [apply enqueue_known; [exact K|reflexivity|reflexivity]|]. intros r [].
  - destruct (get_by_id (a_cache a) ip id) as [[s r]|] eqn:E; cbn [fst snd].
    + split; [exact K'|]. intros r' [<-|[]]. eexists. split; [exact L|]. split; [reflexivity|]. cbn [answers fst snd]. destruct (get_by_id_some _ _ _ _ _ _ G E) as (A & B & _). auto.
    + split; [apply enqueue_known; [exact K|reflexivity|reflexivity]|]. intros r [].
  - assert (X : let q := match get_by_info (a_cache a) s with Some _ => (a, []) | None => worker_result a (WInfo s) (one_outcome o) end in
                known (past ++ [OneInfo m s o]) (fst q) /\ forall r, In r (snd q) -> fit (past ++ [OneInfo m s o]) r).
    { cbv zeta. destruct (get_by_info (a_cache a) s); [split; [exact K'|]; intros r []|]. apply worker_result_known; assumption. }
    cbv zeta in X. destruct (match get_by_info (a_cache a) s with Some _ => (a, []) | None => worker_result a (WInfo s) (one_outcome o) end) as [a' rs]. cbn [fst snd] in *.
    destruct X as [X1 X2]. split; [exact X1|]. intros r H. apply in_app_or in H as [H|[<-|[]]]; [exact (X2 _ H)|]. eexists. split; [exact L|]. split; [reflexivity|]. apply same_refl.
  - destruct (get_by_id (a_cache a) ip id) as [[s r]|] eqn:E; cbn [fst snd].
    + split; [exact K'|]. intros r' [<-|[]]. eexists. split; [exact L|]. split; [reflexivity|]. cbn [answers fst snd]. destruct (get_by_id_some _ _ _ _ _ _ G E) as (A & B & _). auto.
    + apply worker_result_known; assumption.
  - cbn [fst snd]. split; [exact K'|]. intros r [<-|[]]. eexists. split; [exact L|]. split; [reflexivity|]. exact I.
  - destruct (nth_error (a_workers a) i) as [w|]; [|split; [exact K'|]; intros r []]. apply worker_result_known; [exact R'|exact K'].
  - cbn [fst snd]. split; [|intros r []]. intros k l n. cbn [a_pending]. intros H Hn. apply filter_In in H as [H _]. apply in_map_iff in H as ([k' l'] & E & H).
    injection E as <- <-. cbn [snd] in Hn. apply filter_In in Hn as [Hn _]. exact (K' _ _ _ H Hn).
Qed.
Lemma fit_more past evs r : fit past r -> fit (past ++ evs) r.
Proof. intros (e & A & B). exists e. split; [apply in_or_app; auto|exact B]. Qed.
Lemma arun_fit evs : forall past a, good (a_cache a) (a_disk a) -> Forall real past -> Forall real evs -> known past a ->
  forall r, In r (snd (arun a evs)) -> fit (past ++ evs) r.
Proof.
  induction evs as [|ev evs IH]; intros past a G R1 R2 K; cbn [arun]; [intros r []|]. inversion R2 as [|? ? Rv R3]; subst.
  destruct (astep_known past a ev G R1 Rv K) as [K1 F1]. destruct (astep_good a ev G) as (G1 & _ & _). destruct (astep a ev) as [a1 r1]. cbn [fst snd] in *.
  assert (R1' : Forall real (past ++ [ev])) by (apply Forall_app; split; [exact R1|repeat constructor; exact Rv]).
  specialize (IH (past ++ [ev]) a1 G1 R1' R3 K1). destruct (arun a1 evs) as [a2 r2]. cbn [fst snd] in *. rewrite <- app_assoc in IH. cbn [app] in IH.
  intros r H. apply in_app_or in H as [H|H]; [|exact (IH r H)]. apply F1 in H. apply (fit_more _ evs) in H. rewrite <- app_assoc in H. exact H.
Qed.
Lemma NoDup_flat {A B} (f : A -> list B) l x y n : NoDup (flat_map f l) -> In x l -> In y l -> In n (f x) -> In n (f y) -> x = y.
Proof.
  intros H. induction l as [|z l IH]; [intros []|]. cbn [flat_map] in H. intros Hx Hy Nx Ny.
  assert (D : forall w, In w l -> In n (f w) -> ~ In n (f z)).
  { intros w Hw Nw Nz. apply in_split in Nz as (l1 & l2 & E). rewrite E in H. rewrite <- app_assoc in H. cbn [app] in H. apply NoDup_remove_2 in H. apply H.
    apply in_or_app. right. apply in_or_app. right. apply in_flat_map. exists w. auto. }
  assert (T : NoDup (flat_map f l)). { clear -H. induction (f z) as [|b bs IHb]; [exact H|]. inversion H; subst. auto. }
  destruct Hx as [Hx|Hx], Hy as [Hy|Hy]; try congruence.
  - subst z. destruct (D y Hy Ny Nx).
  - subst z. destruct (D x Hx Nx Ny).
  - exact (IH T Hx Hy Nx Ny).
Qed.
Lemma right_answers evs ev r : NoDup (flat_map asks evs) -> Forall real evs -> In ev evs -> In r (snd (arun new_actor evs)) -> asks ev = [fst (fst r)] ->
  answers ev r /\ forall x, snd r = Some x -> get_by_cid (a_cache (fst (arun new_actor evs))) (yr_cid x) = Some x.
Proof.
  intros Hn R He Hr Ha. split.
  - destruct (arun_fit evs [] new_actor good_new (Forall_nil _) R) with (r := r) as (e & A & B & C); [intros k l n []|exact Hr|]. cbn [app] in A.
    rewrite (NoDup_flat asks evs ev e (fst (fst r)) Hn He A); [exact C| |]; rewrite ?Ha, ?B; left; reflexivity.
  - intros x X. destruct (arun_good evs new_actor good_new) as (_ & _ & G). destruct r as [[n s] o]. cbn [snd] in X. subst o. exact (G n s x Hr).
Qed.
