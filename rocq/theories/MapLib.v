(* Association-list maps. A Rust HashMap/BTreeMap is an association list with
   distinct keys; the position of an entry stands for iteration order, which
   for a HashMap is arbitrary. *)
From Verif Require Import Base.

Section Map.
Context {K V : Type} (eqb : K -> K -> bool).

(* HashMap::get *)
Fixpoint mget (k : K) (m : list (K * V)) : option V :=
  match m with
  | [] => None
  | (k', v) :: m' => if eqb k k' then Some v else mget k m'
  end.
(* HashMap::insert: replaces the value of an existing key *)
Fixpoint mset (k : K) (v : V) (m : list (K * V)) : list (K * V) :=
  match m with
  | [] => [(k, v)]
  | (k', v') :: m' => if eqb k k' then (k', v) :: m' else (k', v') :: mset k v m'
  end.
(* HashMap::remove *)
Fixpoint mrem (k : K) (m : list (K * V)) : list (K * V) :=
  match m with
  | [] => []
  | (k', v') :: m' => if eqb k k' then mrem k m' else (k', v') :: mrem k m'
  end.
Definition mkeys (m : list (K * V)) : list K := map fst m.
Definition mvals (m : list (K * V)) : list V := map snd m.
Definition mhas (k : K) (m : list (K * V)) : bool :=
  match mget k m with Some _ => true | None => false end.

Hypothesis eqb_spec : forall a b, reflect (a = b) (eqb a b).

Lemma eqb_refl' a : eqb a a = true.
Proof. destruct (eqb_spec a a); congruence. Qed.
Lemma eqb_neq' a b : a <> b -> eqb a b = false.
Proof. destruct (eqb_spec a b); congruence. Qed.

Lemma mget_mset_eq k v m : mget k (mset k v m) = Some v.
Proof.
  induction m as [|[k' v'] m IH]; cbn.
  - now rewrite eqb_refl'.
  - destruct (eqb k k') eqn:E; cbn; rewrite E; auto.
Qed.
Lemma mget_mset_neq k k2 v m : k <> k2 -> mget k (mset k2 v m) = mget k m.
Proof.
  intros Hn. induction m as [|[k' v'] m IH]; cbn.
  - now rewrite eqb_neq'.
  - destruct (eqb_spec k2 k') as [->|Hk]; cbn.
    + now rewrite (eqb_neq' k k').
    + destruct (eqb k k'); auto.
Qed.
Lemma mget_mset k k2 v m : mget k (mset k2 v m) = if eqb k k2 then Some v else mget k m.
Proof.
  destruct (eqb_spec k k2) as [->|H]; [apply mget_mset_eq|now apply mget_mset_neq].
Qed.
Lemma mget_mrem_eq k m : mget k (mrem k m) = None.
Proof.
  induction m as [|[k' v'] m IH]; cbn; [reflexivity|].
  destruct (eqb k k') eqn:E; cbn; [auto|]. now rewrite E.
Qed.
Lemma mget_mrem_neq k k2 m : k <> k2 -> mget k (mrem k2 m) = mget k m.
Proof.
  intros Hn. induction m as [|[k' v'] m IH]; cbn; [reflexivity|].
  destruct (eqb_spec k2 k') as [->|Hk]; cbn.
  - now rewrite (eqb_neq' k k').
  - destruct (eqb k k'); auto.
Qed.
Lemma mget_mrem k k2 m : mget k (mrem k2 m) = if eqb k k2 then None else mget k m.
Proof.
  destruct (eqb_spec k k2) as [->|H]; [apply mget_mrem_eq|now apply mget_mrem_neq].
Qed.

Lemma mget_In k v m : mget k m = Some v -> In (k, v) m.
Proof.
  induction m as [|[k' v'] m IH]; cbn; [discriminate|].
  destruct (eqb_spec k k') as [->|Hk]; intros H; [inversion H; now left|right; auto].
Qed.
Lemma mget_None_notin k m : mget k m = None <-> ~ In k (mkeys m).
Proof.
  induction m as [|[k' v'] m IH]; cbn; [tauto|].
  destruct (eqb_spec k k') as [->|Hk].
  - split; [discriminate|intros H; exfalso; apply H; now left].
  - rewrite IH. split; intros H; [intros [E|E]; [congruence|tauto]|tauto].
Qed.
Lemma mget_Some_in k v m : mget k m = Some v -> In k (mkeys m).
Proof. intros H. apply mget_In in H. apply in_map_iff. exists (k, v); auto. Qed.
Lemma In_mget k v m : NoDup (mkeys m) -> In (k, v) m -> mget k m = Some v.
Proof.
  induction m as [|[k' v'] m IH]; cbn; [tauto|]. intros Hn [H|H].
  - inversion H; subst. now rewrite eqb_refl'.
  - inversion Hn as [|? ? Hx Hn']; subst.
    destruct (eqb_spec k k') as [->|Hk]; [|auto].
    exfalso; apply Hx. apply in_map_iff. exists (k', v); auto.
Qed.
Lemma mkeys_mset k v m x : In x (mkeys (mset k v m)) <-> x = k \/ In x (mkeys m).
Proof.
  induction m as [|[k' v'] m IH]; cbn.
  - intuition.
  - destruct (eqb_spec k k') as [->|Hk]; cbn; [intuition|]. rewrite IH. intuition.
Qed.
Lemma mkeys_mrem k m x : In x (mkeys (mrem k m)) <-> x <> k /\ In x (mkeys m).
Proof.
  induction m as [|[k' v'] m IH]; cbn.
  - tauto.
  - destruct (eqb_spec k k') as [->|Hk]; cbn; rewrite IH.
    + intuition congruence.
    + intuition congruence.
Qed.
Lemma NoDup_mset k v m : NoDup (mkeys m) -> NoDup (mkeys (mset k v m)).
Proof.
  induction m as [|[k' v'] m IH]; cbn; intros H.
  - constructor; [tauto|constructor].
  - inversion H as [|? ? Hx Hn]; subst.
    destruct (eqb_spec k k') as [->|Hk]; cbn; [constructor; auto|].
    constructor; [|auto]. rewrite mkeys_mset. intros [E|E]; [congruence|tauto].
Qed.
Lemma NoDup_mrem k m : NoDup (mkeys m) -> NoDup (mkeys (mrem k m)).
Proof.
  induction m as [|[k' v'] m IH]; cbn; intros H; [constructor|].
  inversion H as [|? ? Hx Hn]; subst.
  destruct (eqb_spec k k') as [->|Hk]; cbn; [auto|].
  constructor; [|auto]. rewrite mkeys_mrem. tauto.
Qed.
Lemma mset_fresh k v m : ~ In k (mkeys m) -> mset k v m = m ++ [(k, v)].
Proof.
  induction m as [|[k' v'] m IH]; cbn; intros H; [reflexivity|].
  rewrite eqb_neq'; [|intros ->; apply H; now left]. f_equal. apply IH. tauto.
Qed.
Lemma mrem_notin k m : ~ In k (mkeys m) -> mrem k m = m.
Proof.
  induction m as [|[k' v'] m IH]; cbn; intros H; [reflexivity|].
  rewrite eqb_neq'; [|intros ->; apply H; now left]. f_equal. apply IH. tauto.
Qed.
Lemma mget_app k a b : mget k (a ++ b) = match mget k a with Some v => Some v | None => mget k b end.
Proof. induction a as [|[k' v'] a IH]; cbn; [reflexivity|]. destruct (eqb k k'); auto. Qed.
Lemma mget_filter_key (f : K -> bool) k m :
  mget k (filter (fun kv => f (fst kv)) m) = if f k then mget k m else None.
Proof.
  induction m as [|[k' v'] m IH]; cbn; [now destruct (f k)|].
  destruct (f k') eqn:Hf; cbn; destruct (eqb_spec k k') as [->|Hk]; auto.
  - now rewrite Hf.
  - rewrite IH, Hf. reflexivity.
Qed.
Lemma NoDup_filter_keys (f : K * V -> bool) m : NoDup (mkeys m) -> NoDup (mkeys (filter f m)).
Proof.
  induction m as [|[k' v'] m IH]; cbn; intros H; [constructor|].
  inversion H as [|? ? Hx Hn]; subst. destruct (f (k', v')); cbn; [|auto].
  constructor; [|auto]. intros Hi; apply Hx. apply in_map_iff in Hi as [[a b] [Ha Hb]].
  apply filter_In in Hb. apply in_map_iff. exists (a, b). tauto.
Qed.
Lemma mget_filter (f : K * V -> bool) k m : NoDup (mkeys m) ->
  mget k (filter f m) = match mget k m with
                        | Some v => if f (k, v) then Some v else None
                        | None => None end.
Proof.
  induction m as [|[k' v'] m IH]; cbn; intros H; [reflexivity|].
  inversion H as [|? ? Hx Hn]; subst.
  destruct (f (k', v')) eqn:Hf; cbn; destruct (eqb_spec k k') as [->|Hk]; auto.
  - now rewrite Hf.
  - rewrite IH, Hf by auto. apply mget_None_notin in Hx. now rewrite Hx.
Qed.
Lemma mget_map_vals {W} (f : K -> V -> W) k m :
  (fix g (m : list (K * V)) := match m with [] => None | (k', v) :: m' => if eqb k k' then Some (f k' v) else g m' end) m
  = match mget k m with Some v => Some (f k v) | None => None end.
Proof.
  induction m as [|[k' v'] m IH]; [reflexivity|]. cbn.
  destruct (eqb_spec k k') as [->|Hk]; auto.
Qed.
End Map.

Lemma mget_map_val {K V W} eqb (eqb_spec : forall a b : K, reflect (a = b) (eqb a b))
  (f : K -> V -> W) k (m : list (K * V)) :
  mget eqb k (map (fun kv => (fst kv, f (fst kv) (snd kv))) m)
  = match mget eqb k m with Some v => Some (f k v) | None => None end.
Proof.
  induction m as [|[k' v'] m IH]; [reflexivity|]. cbn [map mget fst snd].
  destruct (eqb_spec k k') as [->|Hk]; auto.
Qed.

(* Lookup is invariant under permutation of a map with distinct keys. *)
From Coq Require Import Permutation.
Lemma mget_perm {K V} eqb (eqb_spec : forall a b : K, reflect (a = b) (eqb a b))
  (m m' : list (K * V)) k :
  NoDup (mkeys m) -> Permutation m m' -> mget eqb k m = mget eqb k m'.
Proof.
  intros Hn Hp.
  assert (Hn' : NoDup (mkeys m')).
  { unfold mkeys in *. eapply Permutation_NoDup; [|exact Hn]. now apply Permutation_map. }
  destruct (mget eqb k m) as [v|] eqn:E.
  - apply mget_In in E; [|assumption]. symmetry. apply In_mget; auto.
    eapply Permutation_in; eauto.
  - destruct (mget eqb k m') as [v|] eqn:E'; [|reflexivity].
    apply mget_In in E'; [|assumption].
    assert (In (k, v) m) by (eapply Permutation_in; [apply Permutation_sym|]; eauto).
    apply (In_mget eqb eqb_spec) in H; [congruence|assumption].
Qed.

Lemma Neqb_spec : forall a b : N, reflect (a = b) (a =? b).
Proof. exact N.eqb_spec. Qed.
Definition pair_eqb {A B} (ea : A -> A -> bool) (eb : B -> B -> bool) (x y : A * B) : bool :=
  ea (fst x) (fst y) && eb (snd x) (snd y).
Lemma pair_eqb_spec {A B} ea eb :
  (forall a b : A, reflect (a = b) (ea a b)) -> (forall a b : B, reflect (a = b) (eb a b)) ->
  forall x y, reflect (x = y) (pair_eqb ea eb x y).
Proof.
  intros Ha Hb [a b] [c d]. unfold pair_eqb; cbn.
  destruct (Ha a c), (Hb b d); subst; constructor; congruence.
Qed.
Fixpoint list_eqb {A} (e : A -> A -> bool) (a b : list A) : bool :=
  match a, b with
  | [], [] => true
  | x :: a', y :: b' => e x y && list_eqb e a' b'
  | _, _ => false
  end.
Lemma list_eqb_spec {A} (e : A -> A -> bool) :
  (forall a b, reflect (a = b) (e a b)) -> forall a b, reflect (a = b) (list_eqb e a b).
Proof.
  intros He a; induction a as [|x a IH]; intros [|y b]; cbn; try (constructor; congruence).
  destruct (He x y) as [->|]; cbn; [|constructor; congruence].
  destruct (IH b); constructor; congruence.
Qed.
