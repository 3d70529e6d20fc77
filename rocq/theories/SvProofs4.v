(* Proofs about the supervisors: the subscription tables and the Unsubscribe call. *)
From Coq Require Import List Bool Arith Lia Permutation Sorted.
From Verif Require Import SvModel SvSpec SvProofs SvProofs2 SvProofs3.
Import ListNotations.

Section P.
Variable v : service.
Variable order : list nat.
Variable buffer : nat.
Notation step := (step v order buffer).
Notation reachable := (reachable v order buffer).
Notation tr := (tr v order buffer).
Notation Kinds := (Kinds order).
Notation Base := (Base order).

Ltac fields := cbn [s_queue s_control s_listeners s_replies s_calls s_refused s_panicked s_gone s_dropped] in *.
Ltac lfields := cbn [l_end l_queue l_subs l_next l_done push end_listener alive] in *.
Ltac on_set b a := destruct (Nat.eq_dec b a) as [->|]; [rewrite ?set_same in *|rewrite ?set_other in * by assumption].

(* the command at the head, when it is one the supervisor waits for *)
Lemma head_unsub s a id rest : Sync s -> alive (s_listeners s a) = true -> l_queue (s_listeners s a) = AUnsubscribe id :: rest ->
  exists c ids more b, s_control s = Unsubscribing c ((a, id :: ids) :: more) b Sent.
Proof.
  intros S Hl Hq. destruct (S a Hl) as (pre & Hp & E). rewrite Hq in E. destruct pre as [|m pre]; [|inversion E; subst; inversion Hp; subst; contradiction].
  unfold tail_for in E. cbn in E. destruct (s_control s) as [| |c1 [|[b0 [|? ?]] ?] b [| |]|c1 [|x l] []|]; cbn in E; try discriminate;
  match type of E with context [if ?t then _ else _] => destruct t eqn:Eb; [|discriminate] end; [|discriminate].
  apply Nat.eqb_eq in Eb. inversion E; subst. eauto.
Qed.

(* ---- subscriber ids ---- *)
Definition sub_of (a : nat) (p : nat * reply) : list nat :=
  match snd p with Subscribed b id => if b =? a then [id] else [] | _ => [] end.
Definition Ids1 (n : nat) (subs rep : list nat) : Prop :=
  (forall id, In id rep -> id < n) /\ (forall id, In id subs -> id < n) /\ NoDup rep.
Definition Ids (s : state) : Prop := forall a,
  Ids1 (l_next (s_listeners s a)) (l_subs (s_listeners s a)) (flat_map (sub_of a) (s_replies s)).
Lemma sub_give a g R c r : flat_map (sub_of a) (give g R c r) = flat_map (sub_of a) R ++ (if has c g then [] else sub_of a (c, r)).
Proof. unfold give. destruct (has c g); [rewrite app_nil_r; reflexivity|]. rewrite flat_map_app. cbn [flat_map]. rewrite app_nil_r. reflexivity. Qed.
Lemma nodup_snoc (l : list nat) x : NoDup l -> ~ In x l -> NoDup (l ++ [x]).
Proof. intros H1 H2. apply (Permutation_NoDup (Permutation_cons_append l x)). constructor; assumption. Qed.
Lemma ids_tr s e s' : Ids s -> tr s e s' -> Ids s'.
Proof.
  intros A H. unfold Ids in *. destruct H; fields; intros z; pose proof (A z) as E; try exact E;
    try (on_set z a; lfields; exact E);
    try (rewrite sub_give; destruct (has c gn); rewrite app_nil_r; exact E).
  - (* subscribe *) rewrite sub_give. on_set z a; lfields.
    + destruct E as (E1 & E2 & E3). unfold sub_of at 2. cbn [snd]. rewrite Nat.eqb_refl. split; [|split].
      * intros id Hi. apply in_app_or in Hi. destruct Hi as [Hi|Hi]; [apply E1 in Hi; lia|]. destruct (has c gn); [destruct Hi|]. destruct Hi as [<-|[]]. lia.
      * intros id Hi. destruct (match v with Bmp => true | _ => negb (has c gn) end); [|apply E2 in Hi; lia]. apply in_app_or in Hi. destruct Hi as [Hi|[<-|[]]]; [apply E2 in Hi|]; lia.
      * destruct (has c gn); [rewrite app_nil_r; exact E3|]. apply nodup_snoc; [exact E3|]. intros Hi. apply E1 in Hi. lia.
    + assert (Ez : a =? z = false) by (apply Nat.eqb_neq; auto). unfold sub_of at 2. cbn [snd]. rewrite Ez. destruct (has c gn); rewrite app_nil_r; exact E.
  - rewrite sub_give. unfold sub_of at 2. cbn [snd]. destruct (has c gn); rewrite app_nil_r; on_set z a; lfields; exact E.
  - on_set z a; lfields; [|exact E]. destruct E as (E1 & E2 & E3). split; [exact E1|]. split; [|exact E3]. intros y Hy. apply filter_In in Hy. apply E2. tauto.
Qed.
Lemma ids_hold s : reachable s -> Ids s.
Proof. apply (inv_reachable v order buffer Ids); [intros a; split; [intros id []|split; [intros id []|constructor]]|apply ids_tr]. Qed.
Lemma reported_sub s a id : reported s a id <-> In id (flat_map (sub_of a) (s_replies s)).
Proof.
  rewrite in_flat_map. split.
  - intros [c Hc]. exists (c, Subscribed a id). split; [exact Hc|]. unfold sub_of. cbn [snd]. rewrite Nat.eqb_refl. left. reflexivity.
  - intros [[c r] [Hi Hs]]. exists c. unfold sub_of in Hs. cbn [snd] in Hs. destruct r as [b i| | |]; try destruct Hs. destruct (b =? a) eqn:E; [|destruct Hs]. destruct Hs as [<-|[]]. apply Nat.eqb_eq in E. subst. exact Hi.
Qed.

(* ---- a registered subscription was reported (flow, UDP-Notif) ---- *)
Lemma reported_registered s : v <> Bmp -> reachable s -> forall a id, registered s a id -> reported s a id.
Proof.
  intros Hv. revert s. apply (inv_reachable v order buffer (fun s => forall a id, registered s a id -> reported s a id)).
  - intros a id H. destruct H.
  - intros s e s' A H. unfold registered in *. setoid_rewrite reported_sub. setoid_rewrite reported_sub in A.
    destruct H; fields; intros z i Hi; try exact (A z i Hi); try (on_set z a; lfields; exact (A _ i Hi));
      try (rewrite sub_give; apply in_or_app; left; exact (A z i Hi)).
    + rewrite sub_give. on_set z a; lfields; [|apply in_or_app; left; auto].
      unfold sub_of at 2. cbn [snd]. rewrite Nat.eqb_refl. destruct (has c gn) eqn:Eg.
      * assert (Hk : (if match v with Bmp => true | _ => negb true end then l_subs (L a) ++ [l_next (L a)] else l_subs (L a)) = l_subs (L a)) by (destruct v; [reflexivity|reflexivity|contradiction Hv; reflexivity]).
        rewrite Hk in Hi. apply in_or_app. left. auto.
      * assert (Hk : (if match v with Bmp => true | _ => negb false end then l_subs (L a) ++ [l_next (L a)] else l_subs (L a)) = l_subs (L a) ++ [l_next (L a)]) by (destruct v; reflexivity).
        rewrite Hk in Hi. apply in_app_or in Hi. apply in_or_app. destruct Hi; [left; auto|right; assumption].
    + rewrite sub_give. apply in_or_app. left. on_set z a; lfields; auto.
    + on_set z a; lfields; [|auto]. apply filter_In in Hi. apply A. tauto.
Qed.

(* ---- a subscription stays until an Unsubscribe names it ---- *)
Definition Named (s : state) : Prop :=
  match s_control s with
  | Unsubscribing c todo _ _ => forall a ids id, In (a, ids) todo -> In id ids -> named_by_a_call s a id
  | _ => True
  end.
Lemma named_mono q k L R cs rf pn gn d q' k' L' R' x rf' pn' gn' d' a id :
  named_by_a_call (State q k L R cs rf pn gn d) a id -> named_by_a_call (State q' k' L' R' (cs ++ x) rf' pn' gn' d') a id.
Proof. intros [subs [H1 H2]]. exists subs. fields. split; [apply in_or_app; auto|exact H2]. Qed.
Lemma named_same q k L R cs rf pn gn d q' k' L' R' rf' pn' gn' d' a id :
  named_by_a_call (State q k L R cs rf pn gn d) a id -> named_by_a_call (State q' k' L' R' cs rf' pn' gn' d') a id.
Proof. intros [subs [H1 H2]]. exists subs. auto. Qed.
Lemma named_in subs a id : In id (named subs a) <-> In (a, id) subs.
Proof.
  unfold named. rewrite in_map_iff. split.
  - intros [[b i] [E H]]. cbn in E. subst. apply filter_In in H. destruct H as [H E]. cbn in E. apply Nat.eqb_eq in E. subst. exact H.
  - intros H. exists (a, id). split; [reflexivity|]. apply filter_In. split; [exact H|apply Nat.eqb_refl].
Qed.
Lemma named_tr s e s' : Kinds s -> Named s -> tr s e s' -> Named s'.
Proof.
  intros K N H. pose proof (K_queue order s K) as Kq. unfold Named in *.
  destruct H; fields; auto; try (destruct k; auto; intros; (eapply named_mono || eapply named_same); eauto; fail); try (intros; eapply named_same; eauto; fail).
  - destruct x; cbn [taken]; auto. inversion Kq; subst. cbn in H1. intros a ids id Hi Hj. apply in_map_iff in Hi. destruct Hi as [b [E _]]. inversion E; subst.
    exists subs. fields. split; [eapply nth_error_In; eauto|]. apply named_in. exact Hj.
  - intros a0 ids id Hi Hj. eapply named_same. eapply N; [right; exact Hi|exact Hj].
  - intros a9 ids9 id9 [E|Hi] Hj; [inversion E; subst|]; eapply named_same; [eapply N; [left; reflexivity|right; exact Hj]|eapply N; [right; exact Hi|exact Hj]].
  - intros a9 ids9 id9 [E|Hi] Hj; [inversion E; subst|]; eapply named_same; [eapply N; [left; reflexivity|right; exact Hj]|eapply N; [right; exact Hi|exact Hj]].
  - intros a9 ids9 id9 [E|Hi] Hj; [inversion E; subst|]; eapply named_same; [eapply N; [left; reflexivity|right; exact Hj]|eapply N; [right; exact Hi|exact Hj]].
  - destruct k as [| |c todo b [| |]| |]; subst; auto; intros; eapply named_same; eauto.
Qed.
Lemma kept s : NoDup order -> reachable s -> forall a id, reported s a id -> registered s a id \/ named_by_a_call s a id.
Proof.
  intros Hn Hr. assert (G : Named s /\ forall a id, reported s a id -> registered s a id \/ named_by_a_call s a id); [|apply G].
  revert s Hr. apply with_base; [exact Hn| |].
  - split; [exact I|]. intros a id [c []].
  - intros s e s' B [N A] H. split; [eapply named_tr; eauto; apply B|].
    unfold registered in *. setoid_rewrite reported_sub. setoid_rewrite reported_sub in A.
    pose proof (B_sync order s B) as S.
    destruct H; fields; intros z i Hi; try (destruct (A z i Hi) as [|Hm]; [left; assumption|right; (eapply named_mono || eapply named_same); exact Hm]; fail);
      try (destruct (A z i Hi) as [|Hm]; [left; on_set z a; lfields; assumption|right; eapply named_same; exact Hm]; fail);
      try (rewrite sub_give in Hi; unfold sub_of at 2 in Hi; cbn [snd] in Hi; destruct (has c gn); rewrite app_nil_r in Hi;
           (destruct (A z i Hi) as [|Hm]; [left; assumption|right; eapply named_same; exact Hm]); fail).
    + rewrite sub_give in Hi. apply in_app_or in Hi. destruct Hi as [Hi|Hi].
      * destruct (A z i Hi) as [Hs|Hm]; [left|right; eapply named_same; exact Hm]. on_set z a; lfields; [|assumption].
        destruct (match v with Bmp => true | _ => negb (has c gn) end); [apply in_or_app; left|]; assumption.
      * left. destruct (has c gn) eqn:Eg; [destruct Hi|]. unfold sub_of in Hi. cbn [snd] in Hi. destruct (a =? z) eqn:Ez; [|destruct Hi]. apply Nat.eqb_eq in Ez. subst z.
        destruct Hi as [<-|[]]. rewrite set_same. lfields. assert (Hk : (match v with Bmp => true | _ => negb false end) = true) by (destruct v; reflexivity). rewrite Hk.
        apply in_or_app. right. left. reflexivity.
    + rewrite sub_give in Hi. unfold sub_of at 2 in Hi. cbn [snd] in Hi.
      assert (Hi' : In i (flat_map (sub_of z) R)) by (destruct (has c gn); rewrite app_nil_r in Hi; exact Hi).
      destruct (A z i Hi') as [|Hm]; [left; on_set z a; lfields; assumption|right; eapply named_same; exact Hm].
    + destruct (head_unsub _ a id rest S H H0) as (c0 & ids0 & more & b & Ek). fields.
      destruct (A z i Hi) as [Hs|Hm]; [|right; eapply named_same; exact Hm].
      on_set z a; lfields; [|left; assumption]. destruct (Nat.eq_dec i id) as [->|Hd].
      * right. subst k. unfold Named in N. fields. eapply named_same. apply (N a (id :: ids0) id); left; reflexivity.
      * left. apply filter_In. split; [exact Hs|]. apply Nat.eqb_neq in Hd. rewrite Hd. reflexivity.
Qed.

(* ---- a completed Unsubscribe removed what it names ---- *)
Definition Removing (c a id : nat) (s : state) : Prop :=
  id < l_next (s_listeners s a) /\
  ((exists subs, In (c, CUnsubscribe subs) (s_queue s) /\ In (a, id) subs) \/
   (exists todo b w ids, s_control s = Unsubscribing c todo b w /\ In (a, ids) todo /\ In id ids) \/
   ~ In id (l_subs (s_listeners s a)) \/ alive (s_listeners s a) = false \/ s_control s = Ended) /\
  (forall d ids more b, s_control s = Unsubscribing d ((a, id :: ids) :: more) b Replied -> ~ In id (l_subs (s_listeners s a))).
Lemma removing_tr c0 a0 id0 s e s' : In a0 order -> Base s -> Removing c0 a0 id0 s -> tr s e s' -> Removing c0 a0 id0 s'.
Proof.
  intros Ha B (N & R & W) H. pose proof (B_sync order s B) as S.
  assert (N' : id0 < l_next (s_listeners s' a0)).
  { destruct H; fields; auto; on_set a0 a; lfields; lia. }
  assert (Sub : ~ In id0 (l_subs (s_listeners s a0)) -> ~ In id0 (l_subs (s_listeners s' a0))).
  { intros Hs. destruct H; fields; auto; on_set a0 a; lfields; auto.
    - destruct (match v with Bmp => true | _ => negb (has c gn) end); [|exact Hs]. intros Hi. apply in_app_or in Hi. destruct Hi as [Hi|[Hi|[]]]; [contradiction|lia].
    - intros Hi. apply filter_In in Hi. tauto. }
  split; [exact N'|]. split.
  - destruct R as [(subs & Hq & Hi)|[(todo & b & w & ids & Ek & Ht & Hi)|[Hs|[Hd|He]]]].
    + destruct H; fields; try (left; exists subs; split; assumption).
      * left. exists subs. split; [apply in_or_app; left|]; assumption.
      * destruct Hq as [E|Hq]; [|left; exists subs; split; assumption]. inversion E; subst. right; left. cbn [taken].
        do 3 eexists. exists (named subs a0). split; [reflexivity|]. split; [apply in_map_iff; exists a0; auto|]. apply named_in. exact Hi.
      * right; right; right; right; reflexivity.
      * right; right; right; right; reflexivity.
    + destruct H; fields; try discriminate Ek; try (right; left; do 4 eexists; split; [exact Ek|split; eassumption]);
        try (inversion Ek; subst; clear Ek).
      * destruct Ht.
      * destruct Ht as [E|Ht]; [inversion E; subst; destruct Hi|]. right; left. do 4 eexists. split; [reflexivity|split; eassumption].
      * destruct Ht as [E|Ht]; [inversion E; subst; right; right; right; left; assumption|]. right; left. do 4 eexists. split; [reflexivity|split; [right|]; eassumption].
      * right; left. do 4 eexists. split; [reflexivity|split; eassumption].
      * destruct Ht as [E|Ht]; [inversion E; subst; right; right; right; left; assumption|]. right; left. do 4 eexists. split; [reflexivity|split; [right|]; eassumption].
      * destruct Ht as [E|Ht]; [|right; left; do 4 eexists; split; [reflexivity|split; [right|]; eassumption]]. inversion E; subst. destruct Hi as [->|Hi].
        { right; right; left. eapply W; reflexivity. }
        right; left. do 4 eexists. split; [reflexivity|split; [left; reflexivity|exact Hi]].
      * right; left. destruct w; subst; do 4 eexists; (split; [reflexivity|split; eassumption]).
      * right; right; right; right; reflexivity.
    + right; right; left. auto.
    + right; right; right; left. rewrite (dead_tr v order buffer s e s' a0 Hd H). exact Hd.
    + right; right; right; right. destruct H; fields; auto; try discriminate; try congruence. destruct k as [| |c1 todo b [| |]| |]; subst; auto; discriminate.
  - intros d ids more b Ek. assert (Old : s_control s' = s_control s -> ~ In id0 (l_subs (s_listeners s' a0))).
    { intros E. apply Sub. rewrite E in Ek. eapply W; eauto. }
    destruct H; fields; try discriminate Ek; try (apply Old; reflexivity); try (inversion Ek; fail).
    + destruct x; discriminate.
    + destruct (head_unsub _ a id rest S H H0) as (c1 & ids1 & more1 & b1 & E1). fields. subst k. cbn in H1. rewrite H1 in Ek. injection Ek as _ E2 E3 _ _ _. subst a0 id0.
      rewrite set_same. lfields. intros Hi. apply filter_In in Hi. destruct Hi as [_ Hi]. rewrite Nat.eqb_refl in Hi. discriminate.
Qed.

(* ---- what an Unsubscribe reports ---- *)
Definition expected (subs : list (nat * nat)) (a : nat) : option nat := match named subs a with [] => None | _ => Some a end.
Definition entry (L : nat -> listener) (subs : list (nat * nat)) (a : nat) (r : reply) : Prop :=
  r = Unsubscribed (expected subs a) \/ (r = Unsubscribed None /\ alive (L a) = false).
Definition in_progress (L : nat -> listener) (subs : list (nat * nat)) (k : control) (c : nat) (rs : list reply) : Prop :=
  exists todo b w pre, k = Unsubscribing c todo b w /\ order = pre ++ map fst todo /\ Forall2 (entry L subs) pre rs /\
  match todo with
  | [] => True
  | (a, ids) :: rest => rest = map (fun x => (x, named subs x)) (map fst rest) /\
    exists past, named subs a = past ++ ids /\
      ((past = [] /\ b = None) \/ (past <> [] /\ (b = Some a \/ (b = None /\ alive (L a) = false))))
  end.
Definition Report (s : state) : Prop := forall c subs, nth_error (s_calls s) c = Some (CUnsubscribe subs) -> ~ In c (s_gone s) ->
  ~ In c (s_refused s) -> ~ In c (s_panicked s) -> s_control s <> Ended ->
  (In c (map fst (s_queue s)) /\ replies_to s c = []) \/
  in_progress (s_listeners s) subs (s_control s) c (replies_to s c) \/
  (~ In c (map fst (s_queue s)) /\ in_hand (s_control s) <> Some c /\ Forall2 (entry (s_listeners s) subs) order (replies_to s c)).

Definition rto (R : list (nat * reply)) (c : nat) : list reply := map snd (filter (fun p => fst p =? c) R).
Lemma rto_eq s c : replies_to s c = rto (s_replies s) c.
Proof. reflexivity. Qed.
Lemma rto_give g R d r c : rto (give g R d r) c = rto R c ++ (if has d g then [] else if d =? c then [r] else []).
Proof.
  unfold give. destruct (has d g); [rewrite app_nil_r; reflexivity|]. unfold rto. rewrite filter_app, map_app. cbn [filter fst]. destruct (d =? c); reflexivity.
Qed.
Lemma rto_new R cs c : Forall (reply_ok cs) R -> length cs <= c -> rto R c = [].
Proof.
  intros F H. unfold rto. induction F as [|[d r] R [k [E _]] F IH]; [reflexivity|]. cbn [filter fst] in *.
  assert (Hd : d < length cs) by (apply nth_error_Some; congruence). assert (Ed : d =? c = false) by (apply Nat.eqb_neq; lia). rewrite Ed. exact IH.
Qed.
Lemma entry_mono L L' subs : (forall a, alive (L a) = false -> alive (L' a) = false) -> forall a r, entry L subs a r -> entry L' subs a r.
Proof. intros D a r [H|[H1 H2]]; [left; exact H|right; auto]. Qed.
Lemma F2_impl {A B} (P Q : A -> B -> Prop) l m : (forall a b, P a b -> Q a b) -> Forall2 P l m -> Forall2 Q l m.
Proof. intros H. induction 1; constructor; auto. Qed.
Lemma progress_mono L L' subs k c rs : (forall a, alive (L a) = false -> alive (L' a) = false) -> in_progress L subs k c rs -> in_progress L' subs k c rs.
Proof.
  intros D (todo & b & w & pre & E1 & E2 & E3 & E4). exists todo, b, w, pre. split; [exact E1|]. split; [exact E2|]. split; [eapply F2_impl; [apply entry_mono; exact D|exact E3]|].
  destruct todo as [|[a ids] rest]; [exact I|]. destruct E4 as (E5 & past & E6 & E7). split; [exact E5|]. exists past. split; [exact E6|].
  destruct E7 as [E7|[E7 [E8|[E8 E9]]]]; auto.
  right. split; [exact E7|]. right. auto.
Qed.

Lemma map_fst_named subs l : map fst (map (fun x : nat => (x, named subs x)) l) = l.
Proof. rewrite map_map. apply map_id. Qed.
Lemma report_tr s e s' : Base s -> Report s -> tr s e s' -> Report s'.
Proof.
  intros B A H. pose proof (B_kinds order s B) as K. pose proof (B_ordered order s B) as O. pose proof (B_sync order s B) as Sy.
  pose proof (fun a D => dead_tr v order buffer s e s' a D H) as Dead0.
  assert (Dead : forall a, alive (s_listeners s a) = false -> alive (s_listeners s' a) = false) by (intros a D; rewrite Dead0; auto). clear Dead0.
  pose proof (K_queue order s K) as K1. pose proof (K_ctl order s K) as K2. pose proof (K_cmds order s K) as K3. pose proof (K_replies order s K) as K4.
  unfold Report in *. intros c0 subs0 Hc Hg Hr Hp He. rewrite rto_eq. setoid_rewrite rto_eq in A.
  (* nothing about [c0] changes *)
  assert (Keep : nth_error (s_calls s) c0 = Some (CUnsubscribe subs0) -> ~ In c0 (s_gone s) -> ~ In c0 (s_refused s) -> ~ In c0 (s_panicked s) ->
     s_control s <> Ended -> rto (s_replies s') c0 = rto (s_replies s) c0 ->
     (In c0 (map fst (s_queue s)) <-> In c0 (map fst (s_queue s'))) ->
     (s_control s' = s_control s \/ (in_hand (s_control s) <> Some c0 /\ in_hand (s_control s') <> Some c0)) ->
     (In c0 (map fst (s_queue s')) /\ rto (s_replies s') c0 = []) \/
     in_progress (s_listeners s') subs0 (s_control s') c0 (rto (s_replies s') c0) \/
     (~ In c0 (map fst (s_queue s')) /\ in_hand (s_control s') <> Some c0 /\ Forall2 (entry (s_listeners s') subs0) order (rto (s_replies s') c0))).
  { intros G1 G2 G3 G4 G5 G6 G7 G8. rewrite G6. destruct (A c0 subs0 G1 G2 G3 G4 G5) as [[Q1 Q2]|[Q|[Q1 [Q2 Q3]]]].
    - left. split; [apply G7; exact Q1|exact Q2].
    - right; left. destruct G8 as [->|[G8 _]]; [eapply progress_mono; eauto|]. exfalso. destruct Q as (todo & b & w & pre & E1 & _). apply G8. rewrite E1. reflexivity.
    - right; right. split; [rewrite <- G7; exact Q1|]. split; [destruct G8 as [->|[_ G8]]; assumption|]. eapply F2_impl; [apply entry_mono; exact Dead|exact Q3]. }
  assert (Sub : forall d k r g, nth_error (s_calls s) d = Some k -> is_broadcast k = true -> nth_error (s_calls s) c0 = Some (CUnsubscribe subs0) ->
            rto (give g (s_replies s) d r) c0 = rto (s_replies s) c0).
  { intros d k r g E1 E2 E3. rewrite rto_give. assert (Ed : d =? c0 = false) by (apply Nat.eqb_neq; intros ->; rewrite E3 in E1; inversion E1; subst; discriminate).
    rewrite Ed. destruct (has d g); rewrite app_nil_r; reflexivity. }
  destruct H; fields; try (apply Keep; auto; tauto).
  - (* panic *) assert (c0 <> length cs) by (intros ->; apply Hp; left; reflexivity).
    apply Keep; auto; try tauto.
    + destruct (Nat.lt_ge_cases c0 (length cs)); [rewrite nth_error_app1 in Hc by assumption; exact Hc|]. rewrite nth_error_app2 in Hc by lia. destruct (c0 - length cs) as [|[|n]] eqn:E; [lia|discriminate|discriminate].
    + intros Hi. apply Hp. right. exact Hi.
  - (* queued *) destruct (Nat.eq_dec c0 (length cs)) as [->|Hd].
    + left. split; [rewrite map_app; apply in_or_app; right; left; reflexivity|]. eapply rto_new; eauto.
    + assert (Hc' : nth_error cs c0 = Some (CUnsubscribe subs0)).
      { destruct (Nat.lt_ge_cases c0 (length cs)); [rewrite nth_error_app1 in Hc by assumption; exact Hc|]. rewrite nth_error_app2 in Hc by lia. destruct (c0 - length cs) as [|[|n]] eqn:E; [lia|discriminate|discriminate]. }
      apply Keep; auto. rewrite map_app, in_app_iff. cbn. split; [auto|]. intros [|[|[]]]; [assumption|congruence].
  - (* gave up *) apply Keep; auto; try tauto. intros Hi. apply Hg. right. exact Hi.
  - (* take *) destruct (Nat.eq_dec c0 c) as [->|Hd].
    + inversion K1; subst. cbn in H1. rewrite Hc in H1. inversion H1; subst x.
      assert (Hn : ~ In c (map fst q)). { unfold Ordered in O. cbn in O. inversion O; subst. rewrite Forall_forall in H4. intros Hi. apply H4 in Hi. lia. }
      destruct (A c subs0 Hc Hg Hr Hp) as [[Q1 Q2]|[Q|[Q1 [Q2 Q3]]]]; [discriminate| | |].
      * right; left. rewrite Q2. exists (map (fun a => (a, named subs0 a)) order), None, NotSent, []. split; [reflexivity|]. split; [cbn [app]; rewrite map_map; symmetry; apply map_id|]. split; [constructor|].
        destruct order as [|a o]; [exact I|]. cbn [map]. split; [rewrite map_fst_named; reflexivity|]. exists []. split; [reflexivity|]. left. auto.
      * destruct Q as (? & ? & ? & ? & E & _). discriminate.
      * exfalso. apply Q1. left. reflexivity.
    + apply Keep; auto; try discriminate.
      * cbn. split; [intros [|]; [congruence|assumption]|auto].
      * right. split; [discriminate|]. destruct x; cbn; congruence.
  - apply Keep; auto; try tauto; try discriminate. right. split; [|discriminate]. cbn. destruct K2 as [E _]. intros Ec. inversion Ec; subst. destruct sub; congruence.
  - apply Keep; auto; try tauto; try discriminate. right. destruct K2 as [E _]. split; cbn; intros Ec; inversion Ec; subst; destruct sub; congruence.
  - apply Keep; auto; try tauto; try discriminate. right. destruct K2 as [E _]. split; cbn; intros Ec; inversion Ec; subst; destruct sub; congruence.
  - (* the last listener reported *)
    destruct (Nat.eq_dec c0 c) as [->|Hd].
    + destruct (A c subs0 Hc Hg Hr Hp) as [[Q1 Q2]|[Q|[Q1 [Q2 Q3]]]]; [discriminate| | |].
      * exfalso. unfold Ordered in O. cbn in O. inversion O; subst. rewrite Forall_forall in H2. apply H2 in Q1. lia.
      * right; right. destruct Q as (todo & b' & w' & pre & E1 & E2 & E3 & _). inversion E1; subst. rewrite app_nil_r in E2. subst pre.
        split; [|split; [discriminate|exact E3]]. intros Q1. unfold Ordered in O. cbn in O. inversion O; subst. rewrite Forall_forall in H2. apply H2 in Q1. lia.
      * exfalso. apply Q2. reflexivity.
    + apply Keep; auto; try tauto; try discriminate. right. split; cbn; congruence.
  - (* one listener reported *)
    destruct (Nat.eq_dec c0 c) as [->|Hd].
    + destruct (A c subs0 Hc Hg Hr Hp) as [[Q1 Q2]|[Q|[Q1 [Q2 Q3]]]]; [discriminate| | |].
      * exfalso. unfold Ordered in O. cbn in O. inversion O; subst. rewrite Forall_forall in H2. apply H2 in Q1. lia.
      * right; left. destruct Q as (todo & b' & w' & pre & E1 & E2 & E3 & E4). injection E1 as <- <- <-. destruct E4 as (E5 & past & E6 & E7).
        rewrite rto_give. apply has_nIn in Hg. rewrite Hg, Nat.eqb_refl.
        exists rest, None, NotSent, (pre ++ [a]). split; [reflexivity|]. split; [rewrite <- app_assoc; exact E2|]. split.
        { apply Forall2_app; [exact E3|]. constructor; [|constructor]. rewrite app_nil_r in E6. unfold entry, expected. rewrite E6.
          destruct E7 as [[-> ->]|[E7 [-> | [-> E8]]]]; [left; reflexivity|left; destruct past; [contradiction|reflexivity]|right; auto]. }
        rewrite E5. destruct (map fst rest) as [|a1 r1]; [exact I|]. cbn [map]. split; [rewrite map_fst_named; reflexivity|]. exists []. split; [reflexivity|left; auto].
      * exfalso. apply Q2. reflexivity.
    + apply Keep; auto; try tauto; try discriminate.
      * rewrite rto_give. assert (Ed : c =? c0 = false) by (apply Nat.eqb_neq; auto). rewrite Ed. destruct (has c gn); rewrite app_nil_r; reflexivity.
      * right. split; cbn; congruence.
  - destruct (Nat.eq_dec c0 c) as [->|Hd]; [|apply Keep; auto; try tauto; try discriminate; right; split; cbn; congruence].
    destruct (A c subs0 Hc Hg Hr Hp) as [Q|[Q|Q]]; [discriminate|left; exact Q| |exfalso; apply (proj1 (proj2 Q)); reflexivity].
    right; left. destruct Q as (todo & b' & w' & pre & E1 & E2 & E3 & E4). injection E1 as <- <- <-. destruct E4 as (E5 & past & E6 & E7).
    exists ((a, ids) :: rest), b, NotSent, pre. split; [reflexivity|]. split; [exact E2|]. split; [exact E3|]. split; [exact E5|]. exists (past ++ [id]). split; [rewrite <- app_assoc; exact E6|].
    right. split; [destruct past; discriminate|]. destruct E7 as [[_ ->]|[_ [-> | [-> E8]]]]; auto.
  - destruct (Nat.eq_dec c0 c) as [->|Hd]; [|apply Keep; auto; try tauto; try discriminate; right; split; cbn; congruence].
    destruct (A c subs0 Hc Hg Hr Hp) as [Q|[Q|Q]]; [discriminate|left; exact Q| |exfalso; apply (proj1 (proj2 Q)); reflexivity].
    right; left. apply (progress_mono _ _ _ _ _ _ Dead). destruct Q as (todo & b' & w' & pre & E1 & E2 & E3 & E4). inversion E1; subst.
    exists ((a, id :: ids) :: rest), b', Sent, pre. auto.
  - destruct (Nat.eq_dec c0 c) as [->|Hd]; [|apply Keep; auto; try tauto; try discriminate; right; split; cbn; congruence].
    destruct (A c subs0 Hc Hg Hr Hp) as [Q|[Q|Q]]; [discriminate|left; exact Q| |exfalso; apply (proj1 (proj2 Q)); reflexivity].
    right; left. destruct Q as (todo & b2 & w' & pre & E1 & E2 & E3 & E4). injection E1 as <- <- <-. destruct E4 as (E5 & past & E6 & E7).
    exists ((a, ids) :: rest), b', NotSent, pre. split; [reflexivity|]. split; [exact E2|]. split; [exact E3|]. split; [exact E5|]. exists (past ++ [id]). split; [rewrite <- app_assoc; exact E6|].
    right. split; [destruct past; discriminate|]. destruct H0 as [-> | ->]; [|auto]. destruct E7 as [[_ ->]|[_ [-> | [-> E8]]]]; auto.
  - destruct (Nat.eq_dec c0 c) as [->|Hd]; [|apply Keep; auto; try tauto; try discriminate; right; split; cbn; congruence].
    destruct (A c subs0 Hc Hg Hr Hp) as [Q|[Q|Q]]; [discriminate|left; exact Q| |exfalso; apply (proj1 (proj2 Q)); reflexivity].
    right; left. destruct Q as (todo & b' & w' & pre & E1 & E2 & E3 & E4). injection E1 as <- <- <-. destruct E4 as (E5 & past & E6 & E7).
    exists ((a, ids) :: rest), (Some a), NotSent, pre. split; [reflexivity|]. split; [exact E2|]. split; [exact E3|]. split; [exact E5|]. exists (past ++ [id]). split; [rewrite <- app_assoc; exact E6|].
    right. split; [destruct past; discriminate|auto].
  - apply Keep; auto; try tauto; try discriminate. right. destruct K2 as [E _]. split; cbn; intros Ec; inversion Ec; subst; congruence.
  - apply Keep; auto; try tauto; try discriminate. right. destruct K2 as [E _]. split; cbn; intros Ec; inversion Ec; subst; congruence.
  - apply Keep; auto; try tauto. specialize (K3 a). rewrite H0 in K3. inversion K3; subst. eapply (Sub c CSubscribe); auto.
  - apply Keep; auto; try tauto. specialize (K3 a). rewrite H0 in K3. inversion K3; subst. eapply (Sub c CQuery); auto.
  - destruct (head_unsub _ a id rest Sy H H0) as (c1 & ids1 & more1 & b1 & Ek). fields. subst k. subst k'.
    destruct (Nat.eq_dec c0 c1) as [->|Hd]; [|apply Keep; auto; try tauto; try discriminate; right; split; cbn; congruence].
    destruct (A c1 subs0 Hc Hg Hr Hp) as [Q|[Q|Q]]; [discriminate|left; exact Q| |exfalso; apply (proj1 (proj2 Q)); reflexivity].
    right; left. apply (progress_mono _ _ _ _ _ _ Dead). destruct Q as (todo & b' & w' & pre & E1 & E2 & E3 & E4). inversion E1; subst.
    exists ((a, id :: ids1) :: more1), b', Replied, pre. auto.
Qed.
Lemma report s : NoDup order -> reachable s -> Report s.
Proof.
  intros Hn. apply with_base; [exact Hn| |].
  - intros c subs Hc. cbn in Hc. destruct c; discriminate.
  - intros. eapply report_tr; eauto.
Qed.

(* ---- an answered removal took effect ---- *)
Definition Replied_gone (s : state) : Prop := forall a id d ids more b, s_control s = Unsubscribing d ((a, id :: ids) :: more) b Replied ->
  l_queue (s_listeners s a) = [] /\ ~ In id (l_subs (s_listeners s a)).
Lemma replied_gone s : NoDup order -> reachable s -> Replied_gone s.
Proof.
  intros Hn. apply with_base; [exact Hn|intros a id d ids more b E; discriminate E|].
  clear s. intros s e s' B A H a0 id0 d ids more b Ek. pose proof (B_sync order s B) as S.
  destruct H; cbn [s_control] in Ek; try discriminate Ek; fields; try exact (A a0 id0 _ _ _ _ Ek); try (inversion Ek; fail).
  - destruct x; discriminate Ek.
  - destruct (A a0 id0 _ _ _ _ Ek) as [A1 A2]. cbn [s_listeners] in A1, A2. on_set a0 a; [rewrite H0 in A1; discriminate|auto].
  - destruct (A a0 id0 _ _ _ _ Ek) as [A1 A2]. cbn [s_listeners] in A1, A2. on_set a0 a; [rewrite H0 in A1; discriminate|auto].
  - destruct (head_unsub _ a id rest S H H0) as (c1 & ids1 & more1 & b1 & E1). fields. subst k. cbn in H1. rewrite H1 in Ek. injection Ek as _ E2 E3 _ _ _. subst a0 id0.
    destruct (S a H) as (pre & Hp & E). fields. rewrite H0 in E. unfold tail_for in E. cbn in E. rewrite Nat.eqb_refl in E.
    destruct pre as [|m pre]; [|inversion E; subst; inversion Hp; subst; contradiction]. inversion E; subst.
    rewrite set_same. lfields. split; [reflexivity|]. intros Hi. apply filter_In in Hi. destruct Hi as [_ Hi]. rewrite Nat.eqb_refl in Hi. discriminate.
  - destruct (A a0 id0 _ _ _ _ Ek) as [A1 A2]. cbn [s_listeners] in A1, A2. on_set a0 a; [rewrite H0 in A1; discriminate|auto].
  - destruct (A a0 id0 _ _ _ _ Ek) as [A1 A2]. cbn [s_listeners] in A1, A2. on_set a0 a; lfields; auto.
Qed.
End P.
