From Verif Require Import Base BaseLemmas MapLib EnModel EnSpec.
From Coq Require Import Permutation Sorted.

Lemma nn_eqb_spec a b : reflect (a = b) (nn_eqb a b).
Proof.
  destruct a as [a1 a2], b as [b1 b2]; unfold nn_eqb; cbn.
  destruct (N.eqb_spec a1 b1), (N.eqb_spec a2 b2); constructor; congruence.
Qed.
(* ---- the order ---- *)
Lemma nn_cmp_eq a b : nn_cmp a b = Eq <-> a = b.
Proof.
  destruct a as [a1 a2], b as [b1 b2]; unfold nn_cmp; cbn.
  destruct (N.compare_spec a1 b1); [rewrite N.compare_eq_iff|..]; split; try discriminate; try congruence; intros H'; injection H'; lia.
Qed.
Lemma nn_cmp_anti a b : nn_cmp b a = CompOpp (nn_cmp a b).
Proof.
  destruct a as [a1 a2], b as [b1 b2]; unfold nn_cmp; cbn.
  rewrite (N.compare_antisym a1 b1). destruct (a1 ?= b1); cbn; try reflexivity. apply N.compare_antisym.
Qed.
Lemma nn_cmp_trans a b c : nn_cmp a b = Lt -> nn_cmp b c = Lt -> nn_cmp a c = Lt.
Proof.
  destruct a as [a1 a2], b as [b1 b2], c as [c1 c2]; unfold nn_cmp; cbn.
  destruct (N.compare_spec a1 b1), (N.compare_spec b1 c1); try discriminate; subst; intros H1 H2.
  - rewrite N.compare_refl. rewrite N.compare_lt_iff in *. lia.
  - apply N.compare_lt_iff in H0. now rewrite H0.
  - apply N.compare_lt_iff in H. now rewrite H.
  - assert (H' : a1 ?= c1 = Lt) by (apply N.compare_lt_iff; lia). now rewrite H'.
Qed.
Lemma entry_cmp_eq a b : entry_cmp a b = Eq <-> a = b.
Proof.
  destruct a as [a1 a2], b as [b1 b2]; unfold entry_cmp; cbn.
  destruct (nn_cmp a1 b1) eqn:E.
  - apply nn_cmp_eq in E. subst. rewrite nn_cmp_eq. split; congruence.
  - split; [discriminate|]. intros H; injection H as -> ->. assert (nn_cmp b1 b1 = Eq) by now apply nn_cmp_eq. congruence.
  - split; [discriminate|]. intros H; injection H as -> ->. assert (nn_cmp b1 b1 = Eq) by now apply nn_cmp_eq. congruence.
Qed.
Lemma entry_cmp_anti a b : entry_cmp b a = CompOpp (entry_cmp a b).
Proof.
  unfold entry_cmp. rewrite (nn_cmp_anti (fst a) (fst b)). destruct (nn_cmp (fst a) (fst b)); cbn; try reflexivity. apply nn_cmp_anti.
Qed.
Lemma entry_cmp_trans a b c : entry_cmp a b = Lt -> entry_cmp b c = Lt -> entry_cmp a c = Lt.
Proof.
  unfold entry_cmp. destruct (nn_cmp (fst a) (fst b)) eqn:E1; try discriminate; destruct (nn_cmp (fst b) (fst c)) eqn:E2; try discriminate; intros H1 H2.
  - apply nn_cmp_eq in E1, E2. rewrite E1, E2. assert (H : nn_cmp (fst c) (fst c) = Eq) by now apply nn_cmp_eq. rewrite H. eapply nn_cmp_trans; eauto.
  - apply nn_cmp_eq in E1. rewrite E1, E2. reflexivity.
  - apply nn_cmp_eq in E2. rewrite <- E2, E1. reflexivity.
  - now rewrite (nn_cmp_trans _ _ _ E1 E2).
Qed.
Lemma key_cmp_eq a : forall b, key_cmp a b = Eq <-> a = b.
Proof.
  induction a as [|x a IH]; intros [|y b]; cbn; try (split; discriminate || reflexivity).
  destruct (entry_cmp x y) eqn:E.
  - apply entry_cmp_eq in E. subst. rewrite IH. split; congruence.
  - split; [discriminate|]. intros H; injection H as -> ->. assert (entry_cmp y y = Eq) by now apply entry_cmp_eq. congruence.
  - split; [discriminate|]. intros H; injection H as -> ->. assert (entry_cmp y y = Eq) by now apply entry_cmp_eq. congruence.
Qed.
Lemma key_cmp_anti a : forall b, key_cmp b a = CompOpp (key_cmp a b).
Proof.
  induction a as [|x a IH]; intros [|y b]; cbn; try reflexivity.
  rewrite (entry_cmp_anti x y). destruct (entry_cmp x y); cbn; auto.
Qed.
Lemma key_cmp_trans a : forall b c, key_cmp a b = Lt -> key_cmp b c = Lt -> key_cmp a c = Lt.
Proof.
  induction a as [|x a IH]; intros [|y b] [|z c]; cbn; try discriminate; try reflexivity.
  destruct (entry_cmp x y) eqn:E1; try discriminate; destruct (entry_cmp y z) eqn:E2; try discriminate; intros H1 H2.
  - apply entry_cmp_eq in E1, E2. subst. assert (H : entry_cmp z z = Eq) by now apply entry_cmp_eq. rewrite H. eauto.
  - apply entry_cmp_eq in E1. subst. now rewrite E2.
  - apply entry_cmp_eq in E2. subst. now rewrite E1.
  - now rewrite (entry_cmp_trans _ _ _ E1 E2).
Qed.
Lemma key_eqb_spec a b : reflect (a = b) (key_eqb a b).
Proof.
  unfold key_eqb. destruct (key_cmp a b) eqn:E; constructor.
  - now apply key_cmp_eq.
  - intros H. apply key_cmp_eq in H. congruence.
  - intros H. apply key_cmp_eq in H. congruence.
Qed.
Definition key_lt (a b : key * fmap) : Prop := key_cmp (fst a) (fst b) = Lt.
Definition sorted (m : smap) : Prop := StronglySorted key_lt m.

Lemma mget_bput k k2 v m : mget key_eqb k (bput k2 v m) = if key_eqb k k2 then Some v else mget key_eqb k m.
Proof.
  induction m as [|[k' v'] m IH]; cbn [bput].
  - reflexivity.
  - destruct (key_cmp k2 k') eqn:E.
    + apply key_cmp_eq in E. subst. cbn. now destruct (key_eqb k k').
    + reflexivity.
    + cbn. rewrite IH. destruct (key_eqb_spec k k') as [->|]; [|reflexivity].
      destruct (key_eqb_spec k' k2) as [->|]; [|reflexivity].
      assert (key_cmp k2 k2 = Eq) by now apply key_cmp_eq. congruence.
Qed.
Lemma In_bput x k v m : In x (bput k v m) -> x = (k, v) \/ In x m.
Proof.
  induction m as [|[k' v'] m IH]; cbn [bput].
  - intros [<-|[]]; auto.
  - destruct (key_cmp k k') eqn:E.
    + apply key_cmp_eq in E. subst. intros [<-|H]; [auto|right; now right].
    + intros [<-|H]; auto.
    + intros [<-|H]; [right; now left|]. destruct (IH H); [auto|right; now right].
Qed.
Lemma sorted_bput k v m : sorted m -> sorted (bput k v m).
Proof.
  unfold sorted. induction m as [|[k' v'] m IH]; intros H; cbn [bput].
  - repeat constructor.
  - inversion H as [|? ? H1 H2]; subst. destruct (key_cmp k k') eqn:E.
    + constructor; [exact H1|]. apply key_cmp_eq in E. subst. exact H2.
    + constructor; [exact H|]. constructor; [exact E|].
      rewrite Forall_forall in *. intros x Hx. eapply key_cmp_trans; [exact E|]. now apply H2 in Hx.
    + constructor; [auto|]. rewrite Forall_forall in *. intros x Hx. apply In_bput in Hx. destruct Hx as [->|Hx]; [|auto].
      unfold key_lt; cbn. rewrite key_cmp_anti, E. reflexivity.
Qed.
Lemma sorted_mrem k m : sorted m -> sorted (mrem key_eqb k m).
Proof.
  unfold sorted. induction m as [|[k' v'] m IH]; intros H; cbn [mrem]; [constructor|].
  inversion H as [|? ? H1 H2]; subst. destruct (key_eqb k k'); [auto|]. constructor; [auto|].
  rewrite Forall_forall in *. intros x Hx. apply H2.
  clear - Hx. induction m as [|[k1 v1] m IH]; [exact Hx|]. cbn in *. destruct (key_eqb k k1); [now right; apply IH|].
  destruct Hx; [now left|right; auto].
Qed.
Lemma sorted_NoDup m : sorted m -> NoDup (mkeys m).
Proof.
  unfold sorted, mkeys. induction 1 as [|x m H1 IH H2]; [constructor|]. cbn. constructor; [|exact IH].
  intros Hi. apply in_map_iff in Hi. destruct Hi as (y & Hy & Hi). rewrite Forall_forall in H2. apply H2 in Hi.
  unfold key_lt in Hi. rewrite Hy in Hi. assert (key_cmp (fst x) (fst x) = Eq) by now apply key_cmp_eq. congruence.
Qed.
Lemma In_mrem' {K V} (eqb : K -> K -> bool) (k : K) (m : list (K * V)) x : In x (mrem eqb k m) -> In x m.
Proof. induction m as [|[k' v'] m IH]; cbn; [auto|]. destruct (eqb k k'); cbn; intuition. Qed.
Lemma In_mset' {K V} (eqb : K -> K -> bool) (Hs : forall a b, reflect (a = b) (eqb a b)) (k : K) (v : V) m x : In x (mset eqb k v m) -> x = (k, v) \/ In x m.
Proof.
  induction m as [|[k' v'] m IH]; cbn.
  - intros [<-|[]]; auto.
  - destruct (Hs k k') as [->|]; cbn; intros [<-|H]; auto. destruct (IH H); auto.
Qed.

(* ---- field references ---- *)
Lemma index_from_snd fs : forall cnt, map snd (index_from cnt fs) = fs.
Proof. induction fs as [|f fs IH]; intros cnt; [reflexivity|]. cbn. now rewrite IH. Qed.
Lemma index_inj a b : index_fields a = index_fields b -> a = b.
Proof. intros H. rewrite <- (index_from_snd a []), <- (index_from_snd b []). unfold index_fields in H. now rewrite H. Qed.
Definition count (cnt : list (N * N)) (ie : N) : N := match mget N.eqb ie cnt with Some n => n | None => 0 end.
Lemma mget_index fs : forall cnt ie i,
  mget nn_eqb (ie, i) (index_from cnt fs) =
  if i <? count cnt ie then None else nth_error (filter (fun f => ie_of f =? ie) fs) (N.to_nat (i - count cnt ie)).
Proof.
  induction fs as [|f fs IH]; intros cnt ie i.
  - cbn [index_from mget filter]. destruct (i <? count cnt ie); [reflexivity|]. now destruct (N.to_nat (i - count cnt ie)).
  - cbn [index_from]. fold (count cnt (ie_of f)). cbn [mget]. rewrite IH. clear IH.
    unfold nn_eqb; cbn [fst snd filter].
    assert (Hc : count (mset N.eqb (ie_of f) (count cnt (ie_of f) + 1) cnt) ie = if ie =? ie_of f then count cnt ie + 1 else count cnt ie).
    { unfold count at 1. rewrite (mget_mset _ N.eqb_spec). destruct (N.eqb_spec ie (ie_of f)) as [->|]; reflexivity. }
    rewrite Hc. rewrite (N.eqb_sym (ie_of f) ie). destruct (N.eqb_spec ie (ie_of f)) as [He|He]; cbn [andb].
    + subst ie. destruct (N.eqb_spec i (count cnt (ie_of f))) as [->|Hi].
      * rewrite N.ltb_irrefl, N.sub_diag. reflexivity.
      * destruct (N.ltb_spec i (count cnt (ie_of f) + 1)), (N.ltb_spec i (count cnt (ie_of f))); try lia; [reflexivity|].
        replace (N.to_nat (i - count cnt (ie_of f))) with (S (N.to_nat (i - (count cnt (ie_of f) + 1)))) by lia. reflexivity.
    + reflexivity.
Qed.
Lemma mget_index_fields fs r : mget nn_eqb r (index_fields fs) = occurrence fs r.
Proof.
  destruct r as [ie i]. unfold index_fields, occurrence. rewrite mget_index. change (count [] ie) with 0. rewrite N.sub_0_r.
  destruct (N.ltb_spec i 0); [lia|reflexivity].
Qed.
Lemma index_keys fs : forall cnt x, In x (index_from cnt fs) -> count cnt (fst (fst x)) <= snd (fst x).
Proof.
  induction fs as [|f fs IH]; intros cnt x; [intros []|]. cbn [index_from]. fold (count cnt (ie_of f)). intros [<-|H]; [cbn; lia|].
  apply IH in H. unfold count in H at 1. rewrite (mget_mset _ N.eqb_spec) in H.
  destruct (N.eqb_spec (fst (fst x)) (ie_of f)) as [E|]; [|exact H]. rewrite E. lia.
Qed.
Lemma index_NoDup fs : NoDup (mkeys (index_fields fs)).
Proof.
  unfold index_fields. generalize (@nil (N * N)) as cnt. induction fs as [|f fs IH]; intros cnt; [constructor|].
  cbn [index_from]. fold (count cnt (ie_of f)). cbn. constructor; [|apply IH].
  intros Hi. unfold mkeys in Hi. apply in_map_iff in Hi. destruct Hi as ([r g] & Hr & Hi). apply index_keys in Hi. cbn in Hr, Hi. subst r. cbn in Hi.
  unfold count in Hi at 1. rewrite (mget_mset_eq _ N.eqb_spec) in Hi. lia.
Qed.

(* ---- folding in candidates ---- *)
Definition upd (cur : option weighted) (x : weighted) : option weighted :=
  match cur with Some (w0, _) => if w0 <=? fst x then Some x else cur | None => Some x end.
Lemma upd_best l : forall cur, (forall w f, cur = Some (w, f) -> True) ->
  match fold_left upd l cur with
  | None => cur = None /\ l = []
  | Some x => (cur = Some x /\ Forall (fun y => fst y < fst x) l) \/
    (exists l1 l2, l = l1 ++ x :: l2 /\ Forall (fun y => fst y <= fst x) l1 /\ Forall (fun y => fst y < fst x) l2 /\
                   forall w f, cur = Some (w, f) -> w <= fst x)
  end.
Proof.
  induction l as [|y l IH]; intros cur _.
  - cbn. destruct cur; [left|]; auto.
  - cbn [fold_left]. specialize (IH (upd cur y) ltac:(auto)).
    destruct (fold_left upd l (upd cur y)) as [x|].
    + destruct IH as [[Hc Hl]|(l1 & l2 & -> & H1 & H2 & H3)].
      * destruct cur as [[w0 f0]|]; cbn in Hc.
        -- destruct (N.leb_spec w0 (fst y)).
           ++ injection Hc as <-. right. exists [], l. repeat split; auto. intros w f E; injection E as <- <-. exact H.
           ++ injection Hc as <-. left. split; [reflexivity|]. constructor; [exact H|exact Hl].
        -- injection Hc as <-. right. exists [], l. repeat split; auto. discriminate.
      * assert (Hy : fst y <= fst x /\ forall w f, cur = Some (w, f) -> w <= fst x).
        { destruct cur as [[w0 f0]|]; cbn in H3.
          - destruct (N.leb_spec w0 (fst y)).
            + destruct y as [wy fy]; cbn in *. specialize (H3 wy fy eq_refl). split; [lia|]. intros w f E; injection E as <- <-. lia.
            + specialize (H3 w0 f0 eq_refl). split; [lia|]. intros w f E; injection E as <- <-. lia.
          - destruct y as [wy fy]; cbn in *. specialize (H3 wy fy eq_refl). split; [lia|discriminate]. }
        right. exists (y :: l1), l2. split; [reflexivity|]. split; [constructor; tauto|]. split; [exact H2|tauto].
    + destruct IH as [Hc _]. destruct cur as [[w0 f0]|]; cbn in Hc; [destruct (w0 <=? fst y)|]; discriminate.
Qed.

(* ---- maps of fields ---- *)
Lemma put_fold w inc : NoDup (mkeys inc) -> forall cur r,
  mget nn_eqb r (fold_left (put_field w) inc cur) =
  match mget nn_eqb r inc with Some f => upd (mget nn_eqb r cur) (w, f) | None => mget nn_eqb r cur end.
Proof.
  induction inc as [|[r0 f0] inc IH]; intros ND cur r; [reflexivity|]. cbn in ND. inversion ND as [|? ? Hn ND']; subst.
  cbn [fold_left]. rewrite IH by exact ND'. clear IH.
  assert (Hp : mget nn_eqb r (put_field w cur (r0, f0)) = if nn_eqb r r0 then upd (mget nn_eqb r0 cur) (w, f0) else mget nn_eqb r cur).
  { unfold put_field, upd; cbn [fst snd]. destruct (mget nn_eqb r0 cur) as [[w0 g]|] eqn:E.
    - destruct (w0 <=? w); [apply (mget_mset _ nn_eqb_spec)|]. destruct (nn_eqb_spec r r0) as [->|]; [exact E|reflexivity].
    - apply (mget_mset _ nn_eqb_spec). }
  rewrite Hp. cbn [mget]. destruct (nn_eqb_spec r r0) as [->|Hr].
  - apply (mget_None_notin _ nn_eqb_spec) in Hn. now rewrite Hn.
  - reflexivity.
Qed.
Lemma put_NoDup w inc : forall cur, NoDup (mkeys cur) -> NoDup (mkeys (fold_left (put_field w) inc cur)).
Proof.
  induction inc as [|e inc IH]; intros cur H; [exact H|]. cbn [fold_left]. apply IH. unfold put_field.
  destruct (mget nn_eqb (fst e) cur) as [[w0 g]|]; [destruct (w0 <=? w)|]; auto; now apply (NoDup_mset _ nn_eqb_spec).
Qed.
Lemma put_nonempty w inc : forall cur, cur <> [] -> fold_left (put_field w) inc cur <> [].
Proof.
  induction inc as [|e inc IH]; intros cur H; [exact H|]. cbn [fold_left]. apply IH.
  assert (Hm : forall x, mset nn_eqb (fst e) x cur <> []) by (intros x; destruct cur as [|[a b] cur]; cbn; [congruence|destruct (nn_eqb (fst e) a); discriminate]).
  unfold put_field. destruct (mget nn_eqb (fst e) cur) as [[w0 g]|]; [destruct (w0 <=? w)|]; auto.
Qed.
Lemma mget_weigh (w : N) (inc : list (fref * field)) r : mget nn_eqb r (map (fun e => (fst e, (w, snd e))) inc) = match mget nn_eqb r inc with Some f => Some (w, f) | None => None end.
Proof. induction inc as [|[r0 f0] inc IH]; [reflexivity|]. cbn. now destruct (nn_eqb r r0). Qed.
Lemma mkeys_weigh (w : N) (inc : list (fref * field)) : mkeys (map (fun e => (fst e, (w, snd e))) inc) = mkeys inc.
Proof. unfold mkeys. now rewrite map_map. Qed.

(* ---- the structure ---- *)
Definition wf_smap (m : smap) : Prop :=
  sorted m /\ Forall (fun x => (exists scope, fst x = index_fields scope) /\ NoDup (mkeys (snd x)) /\ snd x <> []) m.
Definition wf_doms (ds : list (N * smap)) : Prop :=
  NoDup (mkeys ds) /\ Forall (fun d => fst d <> 0 /\ snd d <> [] /\ wf_smap (snd d)) ds.
Definition wf_meta (pm : meta) : Prop :=
  wf_smap (m_global pm) /\ wf_doms (m_domains pm) /\ (m_global pm <> [] \/ m_domains pm <> []).
Definition wf (c : cache) : Prop := NoDup (mkeys c) /\ Forall (fun e => wf_meta (snd e)) c.

Definition dmap (pm : meta) (dom : N) : smap :=
  if dom =? 0 then m_global pm else match mget N.eqb dom (m_domains pm) with Some m => m | None => [] end.
Definition fetch (m : smap) (scope : list field) (r : fref) : option weighted :=
  match mget key_eqb (index_fields scope) m with None => None | Some fm => mget nn_eqb r fm end.
Lemma stored_eq c ip dom scope r : stored c ip dom scope r = match mget N.eqb ip c with Some pm => fetch (dmap pm dom) scope r | None => None end.
Proof.
  unfold stored, fetch, dmap. destruct (mget N.eqb ip c) as [pm|]; [|reflexivity]. destruct (dom =? 0); [reflexivity|].
  now destruct (mget N.eqb dom (m_domains pm)).
Qed.
Lemma mget_Forall {K V} (eqb : K -> K -> bool) (Hs : forall a b, reflect (a = b) (eqb a b)) (P : K * V -> Prop) k v m : Forall P m -> mget eqb k m = Some v -> P (k, v).
Proof. intros H Hm. rewrite Forall_forall in H. apply H. now apply (mget_In eqb Hs). Qed.
Lemma wf_dmap pm dom : wf_smap (m_global pm) -> wf_doms (m_domains pm) -> wf_smap (dmap pm dom).
Proof.
  intros Hg [_ Hd]. unfold dmap. destruct (dom =? 0); [exact Hg|].
  destruct (mget N.eqb dom (m_domains pm)) as [m|] eqn:E; [|split; constructor].
  now apply (mget_Forall _ N.eqb_spec _ _ _ _ Hd) in E as (_ & _ & ?).
Qed.
Lemma Forall_bput (P : key * fmap -> Prop) k v m : Forall P m -> P (k, v) -> Forall P (bput k v m).
Proof. rewrite !Forall_forall. intros H Hp x Hx. apply In_bput in Hx. destruct Hx as [->|Hx]; auto. Qed.
Lemma wf_bput scope v m : wf_smap m -> NoDup (mkeys v) -> v <> [] -> wf_smap (bput (index_fields scope) v m).
Proof.
  intros [H1 H2] Hn Hv. split; [now apply sorted_bput|]. apply Forall_bput; [exact H2|]. cbn. eauto.
Qed.
Lemma bput_nonempty k v m : bput k v m <> [].
Proof. destruct m as [|[k' v'] m]; cbn; [discriminate|]. destruct (key_cmp k k'); discriminate. Qed.
Lemma wf_mrem k m : wf_smap m -> wf_smap (mrem key_eqb k m).
Proof.
  intros [H1 H2]. split; [now apply sorted_mrem|]. rewrite Forall_forall in *. intros x Hx. apply H2. now apply In_mrem' in Hx.
Qed.
Lemma wf_upsert_scope scope w fs m : fs <> [] -> wf_smap m -> wf_smap (upsert_scope (index_fields scope) w (index_fields fs) m).
Proof.
  intros Hf Hm. unfold upsert_scope. destruct (mget key_eqb (index_fields scope) m) as [cur|] eqn:E.
  - destruct Hm as [H1 H2]. pose proof (mget_Forall _ key_eqb_spec _ _ _ _ H2 E) as (_ & Hn & Hv). cbn in Hn, Hv.
    apply wf_bput; [now split|now apply put_NoDup|now apply put_nonempty].
  - apply wf_bput; [exact Hm|rewrite mkeys_weigh; apply index_NoDup|]. destruct fs; [congruence|]. discriminate.
Qed.
Lemma fetch_upsert scope w fs m scope' r :
  fetch (upsert_scope (index_fields scope) w (index_fields fs) m) scope' r =
  if key_eqb (index_fields scope') (index_fields scope)
  then match occurrence fs r with Some f => upd (fetch m scope' r) (w, f) | None => fetch m scope' r end
  else fetch m scope' r.
Proof.
  unfold upsert_scope, fetch. destruct (mget key_eqb (index_fields scope) m) as [cur|] eqn:E; rewrite mget_bput;
    destruct (key_eqb_spec (index_fields scope') (index_fields scope)) as [Hk|Hk]; try reflexivity; rewrite Hk, E.
  - rewrite put_fold by apply index_NoDup. rewrite mget_index_fields. reflexivity.
  - rewrite mget_weigh, mget_index_fields. reflexivity.
Qed.
(* writing back the map of one domain *)
Lemma mset_nonempty {K V} (eqb : K -> K -> bool) k (v : V) m : mset eqb k v m <> [].
Proof. destruct m as [|[k' v'] m]; cbn; [discriminate|]. destruct (eqb k k'); discriminate. Qed.
Lemma Forall_mset {K V} (eqb : K -> K -> bool) (Hs : forall a b, reflect (a = b) (eqb a b)) (P : K * V -> Prop) k v m : Forall P m -> P (k, v) -> Forall P (mset eqb k v m).
Proof. rewrite !Forall_forall. intros H Hp x Hx. apply (In_mset' _ Hs) in Hx. destruct Hx as [->|Hx]; auto. Qed.
Lemma Forall_mrem {K V} (eqb : K -> K -> bool) (P : K * V -> Prop) k m : Forall P m -> Forall P (mrem eqb k m).
Proof. rewrite !Forall_forall. intros H x Hx. apply H. now apply In_mrem' in Hx. Qed.
Definition put_dmap (pm : meta) (dom : N) (m : smap) : meta :=
  if dom =? 0 then mkMeta m (m_domains pm) else mkMeta (m_global pm) (mset N.eqb dom m (m_domains pm)).
Lemma dmap_put pm dom m dom' : dmap (put_dmap pm dom m) dom' = if dom' =? dom then m else dmap pm dom'.
Proof.
  unfold dmap, put_dmap. destruct (N.eqb_spec dom 0) as [->|Hd]; cbn [m_global m_domains].
  - now destruct (dom' =? 0).
  - destruct (N.eqb_spec dom' 0) as [->|Hd'].
    + destruct (N.eqb_spec 0 dom); [congruence|reflexivity].
    + rewrite (mget_mset _ N.eqb_spec). now destruct (dom' =? dom).
Qed.
Lemma wf_put pm dom m : wf_smap (m_global pm) -> wf_doms (m_domains pm) -> wf_smap m -> m <> [] -> wf_meta (put_dmap pm dom m).
Proof.
  intros Hg Hd Hm Hn. unfold put_dmap. destruct (N.eqb_spec dom 0) as [->|H0].
  - split; [exact Hm|]. split; [exact Hd|]. now left.
  - split; [exact Hg|]. cbn [m_domains]. split; [|right; apply mset_nonempty].
    destruct Hd as [H1 H2]. split; [now apply (NoDup_mset _ N.eqb_spec)|]. apply (Forall_mset _ N.eqb_spec); [exact H2|]. auto.
Qed.
Lemma wf_mset c ip pm : wf c -> wf_meta pm -> wf (mset N.eqb ip pm c).
Proof. intros [H1 H2] H. split; [now apply (NoDup_mset _ N.eqb_spec)|]. now apply (Forall_mset _ N.eqb_spec). Qed.
Lemma wf_mrem_c c ip : wf c -> wf (mrem N.eqb ip c).
Proof. intros [H1 H2]. split; [now apply (NoDup_mrem _ N.eqb_spec)|]. now apply Forall_mrem. Qed.

(* ---- upsert ---- *)
Definition meta_of (c : cache) (ip : N) : meta := match mget N.eqb ip c with Some pm => pm | None => meta_new end.
Lemma wf_meta_of c ip : wf c -> wf_smap (m_global (meta_of c ip)) /\ wf_doms (m_domains (meta_of c ip)).
Proof.
  intros [_ H]. unfold meta_of. destruct (mget N.eqb ip c) as [pm|] eqn:E.
  - apply (mget_Forall _ N.eqb_spec _ _ _ _ H) in E as (? & ? & _). auto.
  - cbn. repeat split; constructor.
Qed.
Lemma stored_meta_of c ip dom scope r : stored c ip dom scope r = fetch (dmap (meta_of c ip) dom) scope r.
Proof.
  rewrite stored_eq. unfold meta_of. destruct (mget N.eqb ip c); [reflexivity|]. unfold dmap, meta_new; cbn. now destruct (dom =? 0).
Qed.
Lemma upsert_eq ip dom scope w fs c : fs <> [] ->
  upsert ip dom scope w fs c = mset N.eqb ip (put_dmap (meta_of c ip) dom (upsert_scope (index_fields scope) w (index_fields fs) (dmap (meta_of c ip) dom))) c.
Proof.
  intros H. unfold upsert. destruct fs as [|f fs]; [congruence|]. unfold put_dmap, meta_of, dmap. now destruct (dom =? 0).
Qed.
Lemma upsert_scope_nonempty k w inc m : upsert_scope k w inc m <> [].
Proof. unfold upsert_scope. destruct (mget key_eqb k m); apply bput_nonempty. Qed.
Lemma wf_upsert ip dom scope w fs c : wf c -> wf (upsert ip dom scope w fs c).
Proof.
  intros H. destruct fs as [|f fs]; [exact H|]. rewrite upsert_eq by discriminate.
  destruct (wf_meta_of c ip H) as [Hg Hd]. apply wf_mset; [exact H|].
  apply wf_put; auto; [|apply upsert_scope_nonempty]. apply wf_upsert_scope; [discriminate|]. now apply wf_dmap.
Qed.
Lemma stored_mset c ip pm ip' dom scope r : stored (mset N.eqb ip pm c) ip' dom scope r = if ip' =? ip then fetch (dmap pm dom) scope r else stored c ip' dom scope r.
Proof. rewrite !stored_eq, (mget_mset _ N.eqb_spec). now destruct (ip' =? ip). Qed.
Definition same_slot (ip dom : N) (scope : list field) (ip' dom' : N) (scope' : list field) : bool :=
  (ip =? ip') && (dom =? dom') && key_eqb (index_fields scope) (index_fields scope').
Lemma stored_upsert ip dom scope w fs c ip' dom' scope' r :
  stored (upsert ip dom scope w fs c) ip' dom' scope' r =
  if same_slot ip' dom' scope' ip dom scope
  then match occurrence fs r with Some f => upd (stored c ip' dom' scope' r) (w, f) | None => stored c ip' dom' scope' r end
  else stored c ip' dom' scope' r.
Proof.
  unfold same_slot. destruct fs as [|f fs].
  - unfold occurrence; cbn [upsert filter]. destruct (N.to_nat (snd r)); cbn; now destruct (_ && _).
  - rewrite upsert_eq by discriminate. rewrite stored_mset, dmap_put.
    destruct (N.eqb_spec ip' ip) as [->|]; [|reflexivity]. destruct (N.eqb_spec dom' dom) as [->|]; cbn [andb].
    + rewrite fetch_upsert, <- stored_meta_of. reflexivity.
    + symmetry. apply stored_meta_of.
Qed.

(* ---- delete ---- *)
Definition gone (w : N) (all : bool) (ies : list N) (r : fref) (x : option weighted) : option weighted :=
  match x with
  | Some (w0, f0) => if (w0 <=? w) && (all || existsb (N.eqb (fst r)) ies) then None else x
  | None => None
  end.
Lemma mget_stays w all ies fm r : NoDup (mkeys fm) -> mget nn_eqb r (filter (stays w all ies) fm) = gone w all ies r (mget nn_eqb r fm).
Proof.
  intros H. rewrite (mget_filter _ nn_eqb_spec) by exact H. destruct (mget nn_eqb r fm) as [[w0 f0]|]; [|reflexivity].
  unfold stays, gone; cbn. now destruct (_ && _).
Qed.
Lemma is_nil_eq {A} (l : list A) : is_nil l = true -> l = [].
Proof. destruct l; [reflexivity|discriminate]. Qed.
Lemma is_nil_neq {A} (l : list A) : is_nil l = false -> l <> [].
Proof. destruct l; discriminate. Qed.
Lemma fetch_mrem k m scope r : fetch (mrem key_eqb k m) scope r = if key_eqb (index_fields scope) k then None else fetch m scope r.
Proof. unfold fetch. rewrite (mget_mrem _ key_eqb_spec). now destruct (key_eqb _ k). Qed.
Definition drop_dmap (pm : meta) (dom : N) (m : smap) : meta :=
  if dom =? 0 then mkMeta m (m_domains pm)
  else mkMeta (m_global pm) (if is_nil m then mrem N.eqb dom (m_domains pm) else mset N.eqb dom m (m_domains pm)).
Lemma dmap_drop pm dom m dom' : dmap (drop_dmap pm dom m) dom' = if dom' =? dom then m else dmap pm dom'.
Proof.
  unfold dmap, drop_dmap. destruct (N.eqb_spec dom 0) as [->|Hd]; cbn [m_global m_domains].
  - now destruct (dom' =? 0).
  - destruct (N.eqb_spec dom' 0) as [->|Hd'].
    + destruct (N.eqb_spec 0 dom); [congruence|reflexivity].
    + destruct (is_nil m) eqn:En.
      * rewrite (mget_mrem _ N.eqb_spec). apply is_nil_eq in En. now destruct (dom' =? dom).
      * rewrite (mget_mset _ N.eqb_spec). now destruct (dom' =? dom).
Qed.
Lemma wf_drop pm dom m : wf_smap (m_global pm) -> wf_doms (m_domains pm) -> wf_smap m ->
  is_nil (m_global (drop_dmap pm dom m)) && is_nil (m_domains (drop_dmap pm dom m)) = false -> wf_meta (drop_dmap pm dom m).
Proof.
  intros Hg Hd Hm Hn.
  assert (Hn' : m_global (drop_dmap pm dom m) <> [] \/ m_domains (drop_dmap pm dom m) <> []).
  { apply andb_false_iff in Hn as [Hn|Hn]; apply is_nil_neq in Hn; auto. }
  unfold wf_meta. split; [|split; [|exact Hn']]; clear Hn Hn'; unfold drop_dmap; destruct (N.eqb_spec dom 0) as [->|H0]; cbn [m_global m_domains]; auto.
  destruct Hd as [H1 H2]. destruct (is_nil m) eqn:En.
  - split; [now apply (NoDup_mrem _ N.eqb_spec)|]. now apply Forall_mrem.
  - apply is_nil_neq in En. split; [now apply (NoDup_mset _ N.eqb_spec)|]. apply (Forall_mset _ N.eqb_spec); auto.
Qed.
Lemma delete_eq ip dom scope w all ies c :
  delete ip dom scope w all ies c =
  match mget N.eqb ip c with
  | None => c
  | Some pm =>
    match mget key_eqb (index_fields scope) (dmap pm dom) with
    | None => c
    | Some cur =>
      if is_nil (filter (stays w all ies) cur) then
        let pm' := drop_dmap pm dom (mrem key_eqb (index_fields scope) (dmap pm dom)) in
        if is_nil (m_global pm') && is_nil (m_domains pm') then mrem N.eqb ip c else mset N.eqb ip pm' c
      else mset N.eqb ip (put_dmap pm dom (bput (index_fields scope) (filter (stays w all ies) cur) (dmap pm dom))) c
    end
  end.
Proof.
  unfold delete, dmap, put_dmap, drop_dmap. destruct (mget N.eqb ip c) as [pm|]; [|reflexivity].
  destruct (dom =? 0); [reflexivity|]. now destruct (mget N.eqb dom (m_domains pm)).
Qed.
Lemma fetch_nil scope r : fetch [] scope r = None.
Proof. reflexivity. Qed.
Lemma dmap_empty pm dom : is_nil (m_global pm) && is_nil (m_domains pm) = true -> dmap pm dom = [].
Proof.
  intros H. apply andb_true_iff in H as [H1 H2]. apply is_nil_eq in H1, H2. unfold dmap. rewrite H1, H2. now destruct (dom =? 0).
Qed.
Lemma gone_self w all ies r x : x = None -> gone w all ies r x = x.
Proof. now intros ->. Qed.
Lemma delete_spec ip dom scope w all ies c : wf c -> wf (delete ip dom scope w all ies c) /\
  forall ip' dom' scope' r, stored (delete ip dom scope w all ies c) ip' dom' scope' r =
    if same_slot ip' dom' scope' ip dom scope then gone w all ies r (stored c ip' dom' scope' r) else stored c ip' dom' scope' r.
Proof.
  intros Hw. rewrite delete_eq. destruct (mget N.eqb ip c) as [pm|] eqn:Ei.
  2:{ split; [exact Hw|]. intros ip' dom' scope' r. unfold same_slot. destruct (N.eqb_spec ip' ip) as [->|]; [|reflexivity].
      destruct (_ && _); [|reflexivity]. symmetry. apply gone_self. unfold stored. now rewrite Ei. }
  pose proof (mget_Forall _ N.eqb_spec _ _ _ _ (proj2 Hw) Ei) as (Hg & Hd & Hne). cbn in Hg, Hd, Hne.
  pose proof (wf_dmap pm dom Hg Hd) as Hm.
  assert (Hst : forall d s r, stored c ip d s r = fetch (dmap pm d) s r) by (intros; rewrite stored_eq; now rewrite Ei).
  destruct (mget key_eqb (index_fields scope) (dmap pm dom)) as [cur|] eqn:Ek.
  2:{ split; [exact Hw|]. intros ip' dom' scope' r. unfold same_slot. destruct (N.eqb_spec ip' ip) as [->|]; [|reflexivity].
      destruct (N.eqb_spec dom' dom) as [->|]; [|reflexivity]. destruct (key_eqb_spec (index_fields scope') (index_fields scope)) as [E|]; [|reflexivity].
      symmetry. apply gone_self. rewrite Hst. unfold fetch. now rewrite E, Ek. }
  assert (Hcur : NoDup (mkeys cur)).
  { destruct Hm as [_ Hm]. now apply (mget_Forall _ key_eqb_spec _ _ _ _ Hm) in Ek as (_ & ? & _). }
  destruct (is_nil (filter (stays w all ies) cur)) eqn:Enil.
  - set (m' := mrem key_eqb (index_fields scope) (dmap pm dom)). set (pm' := drop_dmap pm dom m'). cbn zeta.
    assert (Hf : forall d s r, fetch (dmap pm' d) s r = if (d =? dom) && key_eqb (index_fields s) (index_fields scope) then gone w all ies r (fetch (dmap pm d) s r) else fetch (dmap pm d) s r).
    { intros d s r. unfold pm'. rewrite dmap_drop. destruct (N.eqb_spec d dom) as [->|]; [|reflexivity]. unfold m'. rewrite fetch_mrem.
      cbn [andb]. destruct (key_eqb_spec (index_fields s) (index_fields scope)) as [E|]; [|reflexivity].
      unfold fetch. rewrite E, Ek, <- mget_stays by exact Hcur. apply is_nil_eq in Enil. now rewrite Enil. }
    destruct (is_nil (m_global pm') && is_nil (m_domains pm')) eqn:Eall.
    + split; [now apply wf_mrem_c|]. intros ip' dom' scope' r. rewrite stored_eq, (mget_mrem _ N.eqb_spec). unfold same_slot.
      destruct (N.eqb_spec ip' ip) as [->|]; [|cbn [andb]; now rewrite stored_eq]. cbn [andb]. rewrite Hst, <- Hf.
      rewrite dmap_empty by exact Eall. reflexivity.
    + split; [apply wf_mset; [exact Hw|]; apply wf_drop; auto; now apply wf_mrem|].
      intros ip' dom' scope' r. rewrite stored_mset. unfold same_slot. destruct (N.eqb_spec ip' ip) as [->|]; [|reflexivity].
      cbn [andb]. now rewrite Hf, Hst.
  - split.
    + apply wf_mset; [exact Hw|]. apply wf_put; auto; [|apply bput_nonempty]. apply wf_bput; [exact Hm|now apply NoDup_filter_keys|now apply is_nil_neq].
    + intros ip' dom' scope' r. rewrite stored_mset. unfold same_slot. destruct (N.eqb_spec ip' ip) as [->|]; [|reflexivity].
      cbn [andb]. rewrite Hst, dmap_put. destruct (N.eqb_spec dom' dom) as [->|]; [|reflexivity]. cbn [andb].
      unfold fetch. rewrite mget_bput. destruct (key_eqb_spec (index_fields scope') (index_fields scope)) as [E|]; [|reflexivity].
      rewrite E, Ek. now apply mget_stays.
Qed.

(* ---- histories ---- *)
Lemma wf_op c o : wf c -> wf (apply_op c o).
Proof.
  intros H. destruct o; cbn [apply_op]; [now apply wf_upsert| |now apply delete_spec].
  destruct (is_nil ies); [exact H|now apply delete_spec].
Qed.
Lemma wf_ops ops : wf (apply_ops ops).
Proof.
  unfold apply_ops. assert (H : wf []) by (split; constructor). revert H. generalize (@nil (N * meta)).
  induction ops as [|o ops IH]; intros c H; [exact H|]. cbn [fold_left]. apply IH. now apply wf_op.
Qed.
Lemma same_slot_spec ip dom scope ip' dom' scope' : reflect (ip = ip' /\ dom = dom' /\ scope = scope') (same_slot ip dom scope ip' dom' scope').
Proof.
  unfold same_slot. destruct (N.eqb_spec ip ip') as [->|]; [|right; intuition]. destruct (N.eqb_spec dom dom') as [->|]; [|right; intuition].
  destruct (key_eqb_spec (index_fields scope) (index_fields scope')) as [E|E]; cbn; [left|right].
  - apply index_inj in E. auto.
  - intros (_ & _ & ->). now apply E.
Qed.
Lemma existsb_ies x ies : existsb (N.eqb x) ies = true <-> In x ies.
Proof. rewrite existsb_exists. split; [intros (y & H & E); apply N.eqb_eq in E; now subst|intros H; exists x; split; [exact H|apply N.eqb_refl]]. Qed.
Lemma op_slot c o ip dom scope r : wf c ->
  (addresses ip dom scope o -> slot_after r o (stored c ip dom scope r) (stored (apply_op c o) ip dom scope r)) /\
  (~ addresses ip dom scope o -> stored (apply_op c o) ip dom scope r = stored c ip dom scope r).
Proof.
  intros Hw. destruct o as [ip' dom' scope' w fs|ip' dom' scope' w ies|ip' dom' scope' w]; cbn [apply_op addresses].
  - rewrite stored_upsert. split.
    + intros (-> & -> & ->). destruct (same_slot_spec ip dom scope ip dom scope) as [_|Hn]; [|now destruct Hn].
      destruct (occurrence fs r) as [f|] eqn:Eo.
      * destruct (stored c ip dom scope r) as [[w0 f0]|]; cbn [upd fst].
        -- destruct (N.leb_spec w0 w); [apply (SA_write_over _ _ w f)|apply (SA_write_low _ _ w f)]; cbn; auto.
        -- apply SA_write_empty. cbn; auto.
      * apply SA_none; cbn; [intros ? ? [_ ?]; congruence|auto].
    + intros Hn. destruct (same_slot_spec ip dom scope ip' dom' scope') as [(-> & -> & ->)|_]; [destruct Hn; auto|reflexivity].
  - destruct ies as [|ie ies]; cbn [is_nil].
    + split; [|reflexivity]. intros _. apply SA_none; cbn; tauto.
    + destruct (delete_spec ip' dom' scope' w false (ie :: ies) c Hw) as [_ Hd]. rewrite Hd. split.
      * intros (-> & -> & ->). destruct (same_slot_spec ip dom scope ip dom scope) as [_|Hn]; [|now destruct Hn].
        destruct (existsb (N.eqb (fst r)) (ie :: ies)) eqn:Ee.
        -- apply existsb_ies in Ee as Hin. destruct (stored c ip dom scope r) as [[w0 f0]|]; cbn [gone].
           ++ rewrite Ee. cbn [orb]. rewrite andb_true_r. destruct (N.leb_spec w0 w); [apply (SA_erase _ _ w)|apply (SA_erase_low _ _ w)]; cbn [erases]; auto.
           ++ apply (SA_erase_empty _ _ w). cbn [erases]. auto.
        -- assert (Hg : forall x, gone w false (ie :: ies) r x = x) by (intros [[w0 f0]|]; cbn [gone orb]; [rewrite Ee, andb_false_r|]; reflexivity).
           rewrite Hg. apply SA_none; cbn [writes erases]; [tauto|]. intros w' [_ Hin]. apply existsb_ies in Hin. congruence.
      * intros Hn. destruct (same_slot_spec ip dom scope ip' dom' scope') as [(-> & -> & ->)|_]; [destruct Hn; auto|reflexivity].
  - destruct (delete_spec ip' dom' scope' w true [] c Hw) as [_ Hd]. rewrite Hd. split.
    + intros (-> & -> & ->). destruct (same_slot_spec ip dom scope ip dom scope) as [_|Hn]; [|now destruct Hn].
      destruct (stored c ip dom scope r) as [[w0 f0]|]; cbn [gone orb].
      * rewrite andb_true_r. destruct (N.leb_spec w0 w); [apply (SA_erase _ _ w)|apply (SA_erase_low _ _ w)]; cbn [erases]; auto.
      * apply (SA_erase_empty _ _ w). reflexivity.
    + intros Hn. destruct (same_slot_spec ip dom scope ip' dom' scope') as [(-> & -> & ->)|_]; [destruct Hn; auto|reflexivity].
Qed.
Lemma apply_ops_snoc ops o : apply_ops (ops ++ [o]) = apply_op (apply_ops ops) o.
Proof. unfold apply_ops. now rewrite fold_left_app. Qed.
Lemma scope_eqb_spec a b : reflect (a = b) (scope_eqb a b).
Proof. apply (list_eqb_spec _ nn_eqb_spec). Qed.
Lemma upserts_fold ip dom scope r ops : Forall is_upsert ops -> forall c,
  stored (fold_left apply_op ops c) ip dom scope r = fold_left upd (offers ip dom scope r ops) (stored c ip dom scope r).
Proof.
  induction 1 as [|o ops Ho _ IH]; intros c; [reflexivity|]. cbn [fold_left]. rewrite IH. unfold offers. cbn [flat_map]. rewrite fold_left_app. f_equal.
  destruct o as [ip' dom' scope' w fs| |]; [|destruct Ho|destruct Ho]. cbn [apply_op]. rewrite stored_upsert.
  assert (Hs : same_slot ip dom scope ip' dom' scope' = (ip' =? ip) && (dom' =? dom) && scope_eqb scope' scope).
  { rewrite (N.eqb_sym ip'), (N.eqb_sym dom'). unfold same_slot. f_equal.
    destruct (key_eqb_spec (index_fields scope) (index_fields scope')) as [E|E], (scope_eqb_spec scope' scope) as [E'|E']; auto; subst.
    - apply index_inj in E. congruence.
    - congruence. }
  rewrite Hs. destruct (_ && _); [|reflexivity]. now destruct (occurrence fs r).
Qed.
Lemma wf_tidy c : wf c -> tidy c.
Proof.
  intros [_ H]. unfold tidy. eapply Forall_impl; [|exact H]. intros [ip pm] ([_ Hg] & [_ Hd] & Hn). cbn in *.
  split; [exact Hn|]. split; [eapply Forall_impl; [|exact Hg]; intros x (_ & _ & ?); auto|].
  eapply Forall_impl; [|exact Hd]. intros d (_ & Hne & _ & Hx). split; [exact Hne|]. eapply Forall_impl; [|exact Hx]. intros x (_ & _ & ?); auto.
Qed.

(* ---- selection ---- *)
Lemma merge_get m : NoDup (mkeys m) -> forall b r,
  mget nn_eqb r (merge b m) = match mget nn_eqb r m with Some x => upd (mget nn_eqb r b) x | None => mget nn_eqb r b end.
Proof.
  induction m as [|[r0 x0] m IH]; intros ND b r; [reflexivity|]. cbn in ND. inversion ND as [|? ? Hn ND']; subst.
  unfold merge in *. cbn [fold_left]. rewrite IH by exact ND'. clear IH.
  assert (Hp : mget nn_eqb r (merge_one b (r0, x0)) = if nn_eqb r r0 then upd (mget nn_eqb r0 b) x0 else mget nn_eqb r b).
  { unfold merge_one, upd; cbn [fst snd]. destruct (mget nn_eqb r0 b) as [[w0 g]|] eqn:E.
    - destruct (w0 <=? fst x0); [apply (mget_mset _ nn_eqb_spec)|]. destruct (nn_eqb_spec r r0) as [->|]; [exact E|reflexivity].
    - apply (mget_mset _ nn_eqb_spec). }
  rewrite Hp. cbn [mget]. destruct (nn_eqb_spec r r0) as [->|Hr].
  - apply (mget_None_notin _ nn_eqb_spec) in Hn. now rewrite Hn.
  - reflexivity.
Qed.
Lemma merge_NoDup m : forall b, NoDup (mkeys b) -> NoDup (mkeys (merge b m)).
Proof.
  unfold merge. induction m as [|e m IH]; intros b H; [exact H|]. cbn [fold_left]. apply IH. unfold merge_one.
  destruct (mget nn_eqb (fst e) b) as [[w0 g]|]; [destruct (w0 <=? fst (snd e))|]; auto; now apply (NoDup_mset _ nn_eqb_spec).
Qed.
(* candidates for r with their domain and scope, in processing order *)
Definition labels (rec : list (fref * field)) (d : N) (r : fref) (m : smap) : list (N * key * weighted) :=
  flat_map (fun e : key * fmap => if matches (fst e) rec then match mget nn_eqb r (snd e) with Some x => [(d, fst e, x)] | None => [] end else []) m.
Definition fmaps_ok (m : smap) : Prop := Forall (fun x : key * fmap => NoDup (mkeys (snd x))) m.
Lemma merge_scopes_get rec d r m : fmaps_ok m -> forall b,
  mget nn_eqb r (merge_scopes rec m b) = fold_left upd (map snd (labels rec d r m)) (mget nn_eqb r b).
Proof.
  unfold merge_scopes, labels. induction 1 as [|e m He _ IH]; intros b; [reflexivity|]. cbn [fold_left flat_map]. rewrite IH, map_app, fold_left_app. f_equal.
  destruct e as [k fm]. cbn [fst snd] in *. destruct (matches k rec); [|reflexivity]. rewrite merge_get by exact He. now destruct (mget nn_eqb r fm).
Qed.
Lemma merge_scopes_NoDup rec m : forall b, NoDup (mkeys b) -> NoDup (mkeys (merge_scopes rec m b)).
Proof.
  unfold merge_scopes. induction m as [|e m IH]; intros b H; [exact H|]. cbn [fold_left]. apply IH.
  destruct (matches (fst e) rec); [now apply merge_NoDup|exact H].
Qed.
Definition all_labels (pm : meta) (dom : N) (fs : list field) (r : fref) : list (N * key * weighted) :=
  labels (index_fields fs) 0 r (m_global pm) ++
  match mget N.eqb dom (m_domains pm) with Some m => labels (index_fields fs) dom r m | None => [] end.
Definition meta_ok (pm : meta) : Prop :=
  fmaps_ok (m_global pm) /\ NoDup (mkeys (m_domains pm)) /\ Forall (fun d => fmaps_ok (snd d)) (m_domains pm).
Lemma wf_smap_fmaps m : wf_smap m -> fmaps_ok m.
Proof. intros [_ H]. unfold fmaps_ok. eapply Forall_impl; [|exact H]. intros x (_ & ? & _); auto. Qed.
Lemma wf_meta_ok pm : wf_meta pm -> meta_ok pm.
Proof.
  intros (Hg & [Hn Hd] & _). split; [now apply wf_smap_fmaps|]. split; [exact Hn|]. eapply Forall_impl; [|exact Hd].
  intros d (_ & _ & ?). now apply wf_smap_fmaps.
Qed.
Lemma selected_get pm dom fs r : meta_ok pm ->
  mget nn_eqb r (selected pm dom fs) = fold_left upd (map snd (all_labels pm dom fs r)) None.
Proof.
  intros (Hg & Hn & Hd). unfold selected, all_labels. destruct (mget N.eqb dom (m_domains pm)) as [m|] eqn:E.
  - assert (Hm : fmaps_ok m) by (now apply (mget_Forall _ N.eqb_spec _ _ _ _ Hd) in E).
    rewrite (merge_scopes_get _ dom) by exact Hm. rewrite (merge_scopes_get _ 0) by exact Hg. cbn [mget].
    now rewrite map_app, fold_left_app.
  - rewrite app_nil_r. now rewrite (merge_scopes_get _ 0) by exact Hg.
Qed.
Lemma selected_NoDup pm dom fs : NoDup (mkeys (selected pm dom fs)).
Proof.
  unfold selected. assert (H : NoDup (mkeys (merge_scopes (index_fields fs) (m_global pm) []))) by (apply merge_scopes_NoDup; constructor).
  destruct (mget N.eqb dom (m_domains pm)); [now apply merge_scopes_NoDup|exact H].
Qed.
Lemma matches_spec scope fs : matches (index_fields scope) (index_fields fs) = true <-> scope_matches scope fs.
Proof.
  unfold matches, scope_matches. rewrite forallb_forall. split.
  - intros H r f Hf. rewrite <- mget_index_fields in Hf. apply (mget_In _ nn_eqb_spec) in Hf. specialize (H _ Hf). cbn in H.
    rewrite mget_index_fields in H. destruct (occurrence fs r) as [g|]; [|discriminate]. destruct (nn_eqb_spec f g); [now subst|discriminate].
  - intros H [r f] Hin. cbn. apply (In_mget _ nn_eqb_spec) in Hin; [|apply index_NoDup]. rewrite mget_index_fields in *.
    rewrite (H _ _ Hin). now destruct (nn_eqb_spec f f).
Qed.
Lemma In_labels rec d r m d' k x : In (d', k, x) (labels rec d r m) <-> d' = d /\ exists fm, In (k, fm) m /\ matches k rec = true /\ mget nn_eqb r fm = Some x.
Proof.
  unfold labels. rewrite in_flat_map. split.
  - intros ([k0 fm] & Hin & Hl). cbn [fst snd] in Hl. destruct (matches k0 rec) eqn:Em; [|destruct Hl]. destruct (mget nn_eqb r fm) as [y|] eqn:Eg; [|destruct Hl].
    destruct Hl as [Hl|[]]. injection Hl as <- <- <-. eauto.
  - intros (-> & fm & Hin & Hm & Hg). exists (k, fm). split; [exact Hin|]. cbn [fst snd]. rewrite Hm, Hg. now left.
Qed.
Lemma sorted_mget m k fm : sorted m -> (In (k, fm) m <-> mget key_eqb k m = Some fm).
Proof. intros H. apply sorted_NoDup in H. split; [now apply (In_mget _ key_eqb_spec)|now apply (mget_In _ key_eqb_spec)]. Qed.
Lemma wf_smap_labels m fs d r d' k x : wf_smap m ->
  (In (d', k, x) (labels (index_fields fs) d r m) <-> d' = d /\ exists scope, k = index_fields scope /\ scope_matches scope fs /\ fetch m scope r = Some x).
Proof.
  intros [Hs Hf]. rewrite In_labels. split; intros [-> H]; (split; [reflexivity|]).
  - destruct H as (fm & Hin & Hm & Hg). rewrite Forall_forall in Hf. destruct (Hf _ Hin) as ([scope Hk] & _ & _). cbn in Hk. subst k.
    exists scope. split; [reflexivity|]. split; [now apply matches_spec|]. unfold fetch. apply sorted_mget in Hin; [|exact Hs]. now rewrite Hin.
  - destruct H as (scope & -> & Hm & Hg). unfold fetch in Hg. destruct (mget key_eqb (index_fields scope) m) as [fm|] eqn:E; [|discriminate].
    exists fm. split; [now apply sorted_mget|]. split; [now apply matches_spec|exact Hg].
Qed.
Lemma In_all_labels c ip pm dom fs r d k x : wf c -> mget N.eqb ip c = Some pm ->
  (In (d, k, x) (all_labels pm dom fs r) <-> applies dom d /\ exists scope, k = index_fields scope /\ scope_matches scope fs /\ stored c ip d scope r = Some x).
Proof.
  intros Hw Hi. pose proof (mget_Forall _ N.eqb_spec _ _ _ _ (proj2 Hw) Hi) as (Hg & Hd & _). cbn in Hg, Hd.
  assert (Hst : forall d s r, stored c ip d s r = fetch (dmap pm d) s r) by (intros; rewrite stored_eq; now rewrite Hi).
  assert (H0 : mget N.eqb 0 (m_domains pm) = None).
  { destruct (mget N.eqb 0 (m_domains pm)) eqn:E; [|reflexivity]. now apply (mget_Forall _ N.eqb_spec _ _ _ _ (proj2 Hd)) in E as (? & _). }
  unfold all_labels. rewrite in_app_iff, wf_smap_labels by exact Hg. split.
  - intros [[-> (scope & -> & Hm & Hf)]|Hin].
    + split; [now left|]. exists scope. rewrite Hst. auto.
    + destruct (mget N.eqb dom (m_domains pm)) as [m|] eqn:E; [|destruct Hin].
      pose proof (mget_Forall _ N.eqb_spec _ _ _ _ (proj2 Hd) E) as (Hne & _ & Hwm). cbn in Hne, Hwm.
      apply wf_smap_labels in Hin; [|exact Hwm]. destruct Hin as [-> (scope & -> & Hm & Hf)]. split; [now right|]. exists scope.
      rewrite Hst. unfold dmap. rewrite E. destruct (N.eqb_spec dom 0); [congruence|]. auto.
  - intros [Ha (scope & -> & Hm & Hf)]. rewrite Hst in Hf. destruct (N.eqb_spec d 0) as [->|Hd0].
    + left. split; [reflexivity|]. exists scope. auto.
    + destruct Ha as [Ha| ->]; [congruence|]. right. unfold dmap in Hf. destruct (N.eqb_spec dom 0); [congruence|].
      destruct (mget N.eqb dom (m_domains pm)) as [m|] eqn:E; [|discriminate].
      pose proof (mget_Forall _ N.eqb_spec _ _ _ _ (proj2 Hd) E) as (_ & _ & Hwm). apply wf_smap_labels; [exact Hwm|]. split; [reflexivity|]. exists scope. auto.
Qed.
Definition lab_lt (a b : N * key * weighted) : Prop :=
  (fst (fst a) = 0 /\ fst (fst b) <> 0) \/ (fst (fst a) = fst (fst b) /\ key_cmp (snd (fst a)) (snd (fst b)) = Lt).

Lemma SS_app {A} (R : A -> A -> Prop) l1 l2 : StronglySorted R l1 -> StronglySorted R l2 ->
  (forall a b, In a l1 -> In b l2 -> R a b) -> StronglySorted R (l1 ++ l2).
Proof.
  intros H1 H2 H. induction H1 as [|a l1 H1 IH Ha]; cbn; [exact H2|]. constructor.
  - apply IH. intros x y Hx Hy. apply H; [now right|exact Hy].
  - apply Forall_app. split; [exact Ha|]. apply Forall_forall. intros y Hy. apply H; [now left|exact Hy].
Qed.
Lemma labels_sorted rec d r m : sorted m -> StronglySorted lab_lt (labels rec d r m).
Proof.
  unfold sorted, labels. induction 1 as [|[k fm] m H IH Hk]; [constructor|]. cbn [flat_map fst snd]. apply SS_app; [| exact IH |].
  - destruct (matches k rec); [|constructor]. destruct (mget nn_eqb r fm); repeat constructor.
  - intros a b Ha Hb. destruct (matches k rec); [|destruct Ha]. destruct (mget nn_eqb r fm) as [x|]; [|destruct Ha]. destruct Ha as [<-|[]].
    destruct b as [[d' k'] x']. apply In_labels in Hb as (-> & fm' & Hin & _). right. split; [reflexivity|]. cbn.
    rewrite Forall_forall in Hk. apply (Hk _ Hin).
Qed.
Lemma all_labels_sorted pm dom fs r : wf_meta pm -> StronglySorted lab_lt (all_labels pm dom fs r).
Proof.
  intros ([Hg _] & [_ Hd] & _). unfold all_labels. destruct (mget N.eqb dom (m_domains pm)) as [m|] eqn:E.
  - pose proof (mget_Forall _ N.eqb_spec _ _ _ _ Hd E) as (Hne & _ & [Hm _]). cbn in Hne. apply SS_app; [now apply labels_sorted|now apply labels_sorted|].
    intros [[a ka] xa] [[b kb] xb] Ha Hb. apply In_labels in Ha as [-> _]. apply In_labels in Hb as [-> _]. left. auto.
  - rewrite app_nil_r. now apply labels_sorted.
Qed.
Lemma SS_mid {A} (R : A -> A -> Prop) l1 x l2 : StronglySorted R (l1 ++ x :: l2) -> Forall (fun y => R y x) l1.
Proof.
  induction l1 as [|a l1 IH]; intros H; [constructor|]. cbn in H. inversion H as [|? ? H1 H2]; subst. constructor; [|auto].
  rewrite Forall_forall in H2. apply H2. apply in_app_iff. right. now left.
Qed.
Lemma map_split {A B} (f : A -> B) l : forall l1 x l2, map f l = l1 ++ x :: l2 -> exists m1 y m2, l = m1 ++ y :: m2 /\ map f m1 = l1 /\ f y = x /\ map f m2 = l2.
Proof.
  induction l as [|a l IH]; intros l1 x l2 H; [now destruct l1|]. destruct l1 as [|b l1]; cbn in H; injection H as Ha Hl.
  - exists [], a, l. auto.
  - apply IH in Hl as (m1 & y & m2 & -> & H1 & H2 & H3). exists (a :: m1), y, m2. cbn. now rewrite H1, Ha.
Qed.
Lemma selected_best c ip pm dom fs r w f : wf c -> mget N.eqb ip c = Some pm -> mget nn_eqb r (selected pm dom fs) = Some (w, f) -> best c ip dom fs r w f.
Proof.
  intros Hw Hi H. pose proof (mget_Forall _ N.eqb_spec _ _ _ _ (proj2 Hw) Hi) as Hm. cbn in Hm.
  rewrite selected_get in H by now apply wf_meta_ok. pose proof (upd_best (map snd (all_labels pm dom fs r)) None ltac:(auto)) as Hb. unfold weighted in H, Hb. rewrite H in Hb.
  destruct Hb as [[? _]|(l1 & l2 & Hl & H1 & H2 & _)]; [discriminate|]. apply map_split in Hl as (m1 & [[d k] x] & m2 & Hl & <- & Hx & <-). cbn in Hx. subst x.
  pose proof (all_labels_sorted pm dom fs r Hm) as Hs. rewrite Hl in Hs. apply SS_mid in Hs.
  assert (Hin : In (d, k, (w, f)) (all_labels pm dom fs r)) by (rewrite Hl; apply in_app_iff; right; now left).
  apply (In_all_labels c ip) in Hin; auto. destruct Hin as [Ha (scope & -> & Hsm & Hst)]. exists d, scope. repeat (split; [assumption|]).
  intros d' scope' w' f' Ha' Hsm' Hst'.
  assert (Hin' : In (d', index_fields scope', (w', f')) (all_labels pm dom fs r)) by (apply (In_all_labels c ip); auto; split; [exact Ha'|exists scope'; auto]).
  rewrite Hl in Hin'. apply in_app_iff in Hin' as [Hin'|[Heq|Hin']].
  - rewrite Forall_forall in H1, Hs. specialize (H1 (w', f') (in_map snd _ _ Hin')). cbn in H1. specialize (Hs _ Hin').
    destruct (N.eq_dec w' w) as [->|]; [|left; lia]. right. split; [reflexivity|]. right. exact Hs.
  - injection Heq as -> E -> ->. apply index_inj in E as ->. right. auto.
  - rewrite Forall_forall in H2. specialize (H2 (w', f') (in_map snd _ _ Hin')). left. exact H2.
Qed.
Lemma before_irrefl d s : ~ before d s d s.
Proof. intros [[-> H]|[_ H]]; [congruence|]. rewrite (proj2 (key_cmp_eq _ _) eq_refl) in H. discriminate. Qed.
Lemma before_asym d s d' s' : before d s d' s' -> before d' s' d s -> False.
Proof.
  intros [[-> H]|[-> H]] [[-> H']|[? H']]; try congruence. rewrite key_cmp_anti in H'. rewrite H in H'. discriminate.
Qed.
Lemma best_unique c ip dom fs r w f w' f' : best c ip dom fs r w f -> best c ip dom fs r w' f' -> w = w' /\ f = f'.
Proof.
  intros (d & s & Ha & Hs & Hst & Hall) (d' & s' & Ha' & Hs' & Hst' & Hall').
  pose proof (Hall _ _ _ _ Ha' Hs' Hst') as H1. pose proof (Hall' _ _ _ _ Ha Hs Hst) as H2.
  destruct H1 as [H1|[-> H1]]; [destruct H2 as [H2|[H2 _]]; lia|]. destruct H2 as [H2|[_ H2]]; [lia|]. split; [reflexivity|].
  destruct H1 as [H1|H1]; [injection H1 as -> ->; rewrite Hst in Hst'; now injection Hst'|].
  destruct H2 as [H2|H2]; [injection H2 as -> ->; rewrite Hst in Hst'; now injection Hst'|]. exfalso. eapply before_asym; eauto.
Qed.
Lemma selected_iff c ip pm dom fs r w f : wf c -> mget N.eqb ip c = Some pm -> (mget nn_eqb r (selected pm dom fs) = Some (w, f) <-> best c ip dom fs r w f).
Proof.
  intros Hw Hi. split; [now apply selected_best|]. intros Hb. destruct (mget nn_eqb r (selected pm dom fs)) as [[w' f']|] eqn:E.
  - apply (selected_best c ip) in E; auto. now destruct (best_unique _ _ _ _ _ _ _ _ _ Hb E) as [-> ->].
  - pose proof (mget_Forall _ N.eqb_spec _ _ _ _ (proj2 Hw) Hi) as Hm. cbn in Hm. rewrite selected_get in E by now apply wf_meta_ok.
    pose proof (upd_best (map snd (all_labels pm dom fs r)) None ltac:(auto)) as Hu. unfold weighted in E, Hu. rewrite E in Hu. destruct Hu as [_ Hnil].
    destruct Hb as (d & s & Ha & Hs & Hst & _). assert (Hin : In (d, index_fields s, (w, f)) (all_labels pm dom fs r)) by (apply (In_all_labels c ip); eauto).
    apply map_eq_nil in Hnil. rewrite Hnil in Hin. destruct Hin.
Qed.
Lemma best_peer c ip dom fs r w f : best c ip dom fs r w f -> exists pm, mget N.eqb ip c = Some pm.
Proof. intros (d & s & _ & _ & H & _). unfold stored in H. destruct (mget N.eqb ip c); [eauto|discriminate]. Qed.
Lemma NoDup_mget_In {V} (m : list (fref * V)) r x : NoDup (mkeys m) -> (In (r, x) m <-> mget nn_eqb r m = Some x).
Proof. intros H. split; [now apply (In_mget _ nn_eqb_spec)|apply (mget_In _ nn_eqb_spec)]. Qed.
(* the answer: one value for each reference that has a best one *)
Lemma enrichment_answer c ip dom fs : wf c -> exists rs l,
  NoDup rs /\ (forall r, In r rs <-> exists w f, best c ip dom fs r w f) /\ Forall2 (fun r f => exists w, best c ip dom fs r w f) rs l /\
  enrichment_fields c ip dom fs = if is_nil l then None else Some l.
Proof.
  intros Hw. unfold enrichment_fields. destruct (mget N.eqb ip c) as [pm|] eqn:Hi.
  2:{ exists [], []. split; [constructor|]. split; [|split; [constructor|reflexivity]]. intros r. split; [intros []|].
      intros (w & f & Hb). apply best_peer in Hb as [pm Hp]. congruence. }
  exists (mkeys (selected pm dom fs)), (map snd (mvals (selected pm dom fs))).
  pose proof (selected_NoDup pm dom fs) as Hn. split; [exact Hn|]. split; [|split].
  - intros r. split.
    + intros Hin. apply in_map_iff in Hin as ([r' [w f]] & Er & Hin). cbn in Er. subst r'. exists w, f. apply (selected_iff c ip pm); auto. now apply NoDup_mget_In.
    + intros (w & f & Hb). apply (selected_iff c ip pm) in Hb; auto. apply NoDup_mget_In in Hb; auto. apply in_map_iff. now exists (r, (w, f)).
  - assert (Hall : Forall (fun e : fref * weighted => exists w, best c ip dom fs (fst e) w (snd (snd e))) (selected pm dom fs)).
    { apply Forall_forall. intros [r [w f]] Hin. exists w. cbn. apply (selected_iff c ip pm); auto. now apply NoDup_mget_In. }
    clear Hn. induction Hall as [|e m He _ IH]; [constructor|]. cbn. constructor; [exact He|exact IH].
  - unfold meta_fields. pose proof (mget_Forall _ N.eqb_spec _ _ _ _ (proj2 Hw) Hi) as (_ & _ & Hne). cbn in Hne.
    assert (Hf : is_nil (m_global pm) && is_nil (m_domains pm) = false) by (destruct (m_global pm), (m_domains pm); auto; now destruct Hne).
    rewrite Hf. now destruct (selected pm dom fs).
Qed.
(* ---- hash order ---- *)
Lemma same_selected pm pm' dom fs : meta_ok pm -> meta_ok pm' -> same_meta pm pm' -> Permutation (selected pm dom fs) (selected pm' dom fs).
Proof.
  intros Hok Hok' [Hg (ds & Hp & Hd)].
  assert (Hl : forall d r m m', fmaps_ok m -> reordered m m' -> labels (index_fields fs) d r m = labels (index_fields fs) d r m').
  { intros d r m m' Hm Hr. unfold labels. induction Hr as [|[k fm] [k' fm'] m m' [Hk Hf] Hr IH]; [reflexivity|]. inversion Hm; subst. cbn [flat_map fst snd] in *. subst k'.
    rewrite IH by assumption. f_equal. destruct (matches k (index_fields fs)); [|reflexivity].
    now rewrite (mget_perm _ nn_eqb_spec fm fm' r). }
  assert (Hget : forall r, mget nn_eqb r (selected pm dom fs) = mget nn_eqb r (selected pm' dom fs)).
  { intros r. rewrite !selected_get by assumption. f_equal. f_equal. unfold all_labels. f_equal; [apply Hl; [apply Hok|exact Hg]|].
    destruct Hok as (_ & Hn & Hf). rewrite (mget_perm _ N.eqb_spec (m_domains pm) ds dom) by assumption.
    assert (Hf' : Forall (fun d => fmaps_ok (snd d)) ds) by (rewrite Forall_forall in *; intros x Hx; apply Hf; now apply (Permutation_in _ (Permutation_sym Hp))).
    clear - Hd Hl Hf'. induction Hd as [|[a m] [b m'] ds ds' [Ha Hm] _ IH]; [reflexivity|]. inversion Hf'; subst. cbn in Ha, Hm. subst b. cbn [mget].
    destruct (dom =? a); [now apply Hl|auto]. }
  apply NoDup_Permutation.
  - eapply NoDup_map_inv. apply selected_NoDup.
  - eapply NoDup_map_inv. apply selected_NoDup.
  - intros [r x]. rewrite !NoDup_mget_In by apply selected_NoDup. now rewrite Hget.
Qed.

(* ---- where values come from ---- *)
Lemma slot_after_writes r o before w f : slot_after r o before (Some (w, f)) -> before = Some (w, f) \/ writes r o w f.
Proof. intros H. inversion H; subst; auto. Qed.
Lemma addresses_dec ip dom scope o : {addresses ip dom scope o} + {~ addresses ip dom scope o}.
Proof.
  destruct o as [ip' dom' scope' w fs|ip' dom' scope' w ies|ip' dom' scope' w]; cbn [addresses];
    (destruct (same_slot_spec ip' dom' scope' ip dom scope); [left|right]; assumption).
Qed.
Lemma stored_origin ops : forall ip dom scope r w f, stored (apply_ops ops) ip dom scope r = Some (w, f) ->
  exists o, In o ops /\ addresses ip dom scope o /\ writes r o w f.
Proof.
  induction ops as [|o ops IH] using rev_ind; intros ip dom scope r w f H; [discriminate|]. rewrite apply_ops_snoc in H.
  destruct (op_slot (apply_ops ops) o ip dom scope r (wf_ops ops)) as [H1 H2].
  destruct (addresses_dec ip dom scope o) as [Ha|Ha].
  - specialize (H1 Ha). rewrite H in H1. apply slot_after_writes in H1 as [H1|H1].
    + apply IH in H1 as (o' & Hi & H1). exists o'. split; [apply in_app_iff; now left|exact H1].
    + exists o. split; [apply in_app_iff; right; now left|auto].
  - rewrite H2 in H by exact Ha. apply IH in H as (o' & Hi & H). exists o'. split; [apply in_app_iff; now left|exact H].
Qed.
Lemma occurrence_ie fs r f : occurrence fs r = Some f -> ie_of f = fst r.
Proof. unfold occurrence. intros H. apply nth_error_In in H. apply filter_In in H as [_ H]. now apply N.eqb_eq in H. Qed.
Lemma stored_ie ops ip dom scope r w f : stored (apply_ops ops) ip dom scope r = Some (w, f) -> ie_of f = fst r.
Proof.
  intros H. apply stored_origin in H as (o & _ & _ & H). destruct o; cbn in H; try contradiction. destruct H as [_ H]. now apply occurrence_ie in H.
Qed.
(* ---- peers ---- *)
Lemma peer_iff c ip : wf c -> (mget N.eqb ip c <> None <-> exists dom scope r x, stored c ip dom scope r = Some x).
Proof.
  intros Hw. split.
  - intros Hp. destruct (mget N.eqb ip c) as [pm|] eqn:Hi; [|congruence]. clear Hp.
    pose proof (mget_Forall _ N.eqb_spec _ _ _ _ (proj2 Hw) Hi) as (Hg & Hd & Hne). cbn in Hg, Hd, Hne.
    assert (Hsm : exists dom, dmap pm dom <> [] /\ wf_smap (dmap pm dom)).
    { destruct Hne as [Hne|Hne]; [exists 0; auto|]. destruct Hd as [Hn Hd]. destruct (m_domains pm) as [|[d m] ds] eqn:E; [congruence|].
      inversion Hd as [|? ? (H0 & Hm & Hwm) _]; subst. cbn in *. exists d. unfold dmap. rewrite E. cbn. rewrite N.eqb_refl. destruct (N.eqb_spec d 0); [congruence|auto]. }
    destruct Hsm as (dom & Hn & Hs & Hf). destruct (dmap pm dom) as [|[k fm] m] eqn:E; [congruence|].
    inversion Hf as [|? ? ([scope Hk] & Hnd & Hfm) _]; subst. cbn in *. subst k. destruct fm as [|[r x] fm]; [congruence|].
    exists dom, scope, r, x. rewrite stored_eq, Hi, E. unfold fetch. cbn [mget].
    destruct (key_eqb_spec (index_fields scope) (index_fields scope)); [|congruence]. cbn [mget]. now destruct (nn_eqb_spec r r).
  - intros (dom & scope & r & x & H) Hn. rewrite stored_eq, Hn in H. discriminate.
Qed.
Lemma index_app s t : forall cnt, exists cnt', index_from cnt (s ++ t) = index_from cnt s ++ index_from cnt' t.
Proof.
  induction s as [|f s IH]; intros cnt; [now exists cnt|]. cbn [app index_from]. destruct (IH (mset N.eqb (ie_of f) (match mget N.eqb (ie_of f) cnt with Some n => n | None => 0 end + 1) cnt)) as [cnt' H].
  exists cnt'. now rewrite H.
Qed.
Lemma key_cmp_app k x l : key_cmp k (k ++ x :: l) = Lt.
Proof.
  induction k as [|y k IH]; [reflexivity|]. cbn. assert (H : entry_cmp y y = Eq); [|now rewrite H].
  unfold entry_cmp, nn_cmp. now rewrite !N.compare_refl.
Qed.
Lemma prefix_before d s f t : before d s d (s ++ f :: t).
Proof.
  right. split; [reflexivity|]. unfold index_fields. destruct (index_app s (f :: t) []) as [cnt' ->]. cbn [index_from]. apply key_cmp_app.
Qed.
