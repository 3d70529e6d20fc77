(* Properties C32-C34 and C64-C66: the enrichment cache. *)
From Verif Require Import Base BaseLemmas MapLib EnModel EnSpec EnProofs.
From Coq Require Import Permutation.

(* ---- C32 ---- *)
(* After upserts to an empty slot, interleaved with upserts to others, the slot
   holds the last of the heaviest values offered. *)
Theorem C32_last_of_the_heaviest : forall ops0 ops ip dom scope r, Forall is_upsert ops ->
  stored (apply_ops ops0) ip dom scope r = None ->
  match stored (apply_ops (ops0 ++ ops)) ip dom scope r with
  | None => offers ip dom scope r ops = []
  | Some x => exists l1 l2, offers ip dom scope r ops = l1 ++ x :: l2 /\
              Forall (fun y => fst y <= fst x) l1 /\ Forall (fun y => fst y < fst x) l2
  end.
Proof.
  intros ops0 ops ip dom scope r Hu H0. unfold apply_ops. rewrite fold_left_app. fold (apply_ops ops0). rewrite upserts_fold by exact Hu. rewrite H0.
  pose proof (upd_best (offers ip dom scope r ops) None ltac:(auto)) as H. revert H. generalize (offers ip dom scope r ops). intros l H. destruct (fold_left upd l None) as [x|] eqn:Ef; unfold weighted in Ef, H; rewrite Ef in H.
  - destruct H as [[? _]|(l1 & l2 & H1 & H2 & H3 & _)]; [discriminate|]. eauto.
  - tauto.
Qed.
(* Over any history, with deletes too: one operation changes the slot as
   slot_after says if it names it, and leaves it alone otherwise. *)
Theorem C32_one_operation : forall ops o ip dom scope r,
  (addresses ip dom scope o -> slot_after r o (stored (apply_ops ops) ip dom scope r) (stored (apply_ops (ops ++ [o])) ip dom scope r)) /\
  (~ addresses ip dom scope o -> stored (apply_ops (ops ++ [o])) ip dom scope r = stored (apply_ops ops) ip dom scope r).
Proof. intros ops o ip dom scope r. rewrite apply_ops_snoc. apply op_slot, wf_ops. Qed.
(* Every value held was upserted under that peer, domain, scope and element. *)
Theorem C32_values_were_upserted : forall ops ip dom scope r w f, stored (apply_ops ops) ip dom scope r = Some (w, f) ->
  ie_of f = fst r /\ exists fs, In (Upsert ip dom scope w fs) ops /\ occurrence fs r = Some f.
Proof.
  intros ops ip dom scope r w f H. split; [now apply stored_ie in H|]. apply stored_origin in H as (o & Hi & Ha & Hw).
  destruct o as [ip' dom' scope' w' fs| |]; cbn in Ha, Hw; try contradiction. destruct Ha as (-> & -> & ->), Hw as [-> Hf]. eauto.
Qed.

(* ---- C33 ---- *)
Theorem C33_delete_named : forall ops ip dom scope w ies r w0 f0,
  stored (apply_ops (ops ++ [Delete ip dom scope w ies])) ip dom scope r = Some (w0, f0) <->
  stored (apply_ops ops) ip dom scope r = Some (w0, f0) /\ ~ (In (fst r) ies /\ w0 <= w).
Proof.
  intros ops ip dom scope w ies r w0 f0. destruct (C32_one_operation ops (Delete ip dom scope w ies) ip dom scope r) as [H _].
  specialize (H ltac:(cbn; auto)). inversion H as [? ? Hw|? ? ? ? Hw|? ? ? ? Hw|w1 w2 f2 He Hl|w1 w2 f2 He Hl|cur Hw He|w1 He]; subst; cbn [writes] in *; try contradiction.
  - split; [discriminate|]. intros [E Hn]. injection E as -> ->. destruct He as [-> He]. tauto.
  - split; [|now intros [? _]]. intros E. split; [exact E|]. injection E as -> ->. destruct He as [-> He]. lia.
  - split; [|now intros [? _]]. intros E. split; [exact E|]. intros [Hi _]. apply (He w). cbn. auto.
  - split; [discriminate|now intros [? _]].
Qed.
Theorem C33_delete_all : forall ops ip dom scope w r w0 f0,
  stored (apply_ops (ops ++ [DeleteAll ip dom scope w])) ip dom scope r = Some (w0, f0) <->
  stored (apply_ops ops) ip dom scope r = Some (w0, f0) /\ w < w0.
Proof.
  intros ops ip dom scope w r w0 f0. destruct (C32_one_operation ops (DeleteAll ip dom scope w) ip dom scope r) as [H _].
  specialize (H ltac:(cbn; auto)). inversion H as [? ? Hw|? ? ? ? Hw|? ? ? ? Hw|w1 w2 f2 He Hl|w1 w2 f2 He Hl|cur Hw He|w1 He]; subst; cbn [writes erases] in *; try contradiction.
  - split; [discriminate|]. intros [E Hn]. injection E as -> ->. lia.
  - split; [|now intros [? _]]. intros E. split; [exact E|]. injection E as -> ->. lia.
  - now destruct (He w).
  - split; [discriminate|now intros [? _]].
Qed.
Theorem C33_nothing_else_changes : forall ops o ip dom scope r,
  (exists w ies ip' dom' scope', (o = Delete ip' dom' scope' w ies \/ o = DeleteAll ip' dom' scope' w) /\ (ip', dom', scope') <> (ip, dom, scope)) ->
  stored (apply_ops (ops ++ [o])) ip dom scope r = stored (apply_ops ops) ip dom scope r.
Proof.
  intros ops o ip dom scope r (w & ies & ip' & dom' & scope' & Ho & Hn). apply C32_one_operation. intros Ha.
  destruct Ho as [-> | ->]; cbn in Ha; destruct Ha as (-> & -> & ->); now apply Hn.
Qed.
(* No empty container is left by any history, and a peer is present exactly
   when some value is held for it. *)
Theorem C33_no_empty_containers : forall ops,
  tidy (apply_ops ops) /\
  forall ip, mget N.eqb ip (apply_ops ops) <> None <-> exists dom scope r x, stored (apply_ops ops) ip dom scope r = Some x.
Proof. intros ops. split; [apply wf_tidy, wf_ops|]. intros ip. apply peer_iff, wf_ops. Qed.

(* ---- C34 ---- *)
(* The answer for a record has exactly one value for each field reference that
   some matching scope offers: the best one, and it is a value of that element. *)
Theorem C34_best_values : forall ops ip dom fs, let c := apply_ops ops in
  exists rs l, NoDup rs /\
  (forall r, In r rs <-> exists d scope x, applies dom d /\ scope_matches scope fs /\ stored c ip d scope r = Some x) /\
  Forall2 (fun r f => ie_of f = fst r /\ exists w, best c ip dom fs r w f) rs l /\
  enrichment_fields c ip dom fs = match l with [] => None | _ => Some l end.
Proof.
  intros ops ip dom fs c. destruct (enrichment_answer c ip dom fs (wf_ops ops)) as (rs & l & Hn & Hr & Hl & He).
  exists rs, l. split; [exact Hn|]. split; [|split].
  - intros r. rewrite Hr. split.
    + intros (w & f & d & scope & Ha & Hm & Hst & _). eauto 6.
    + intros (d & scope & [w f] & Ha & Hm & Hst). assert (Hst' := Hst). rewrite stored_eq in Hst'.
      destruct (mget N.eqb ip c) as [pm|] eqn:Hi; [|discriminate].
      assert (Hin : In (d, index_fields scope, (w, f)) (all_labels pm dom fs r)) by (apply (In_all_labels c ip); [apply wf_ops|exact Hi|eauto]).
      destruct (mget nn_eqb r (selected pm dom fs)) as [[w' f']|] eqn:E.
      * exists w', f'. apply (selected_iff c ip pm); auto. apply wf_ops.
      * rewrite selected_get in E. 2:{ apply wf_meta_ok. now apply (mget_Forall _ N.eqb_spec _ _ _ _ (proj2 (wf_ops ops))) in Hi. }
        pose proof (upd_best (map snd (all_labels pm dom fs r)) None ltac:(auto)) as Hu. unfold weighted in E, Hu. rewrite E in Hu.
        destruct Hu as [_ Hu]. apply map_eq_nil in Hu. rewrite Hu in Hin. destruct Hin.
  - clear Hn Hr He. induction Hl as [|r f rs l [w Hb] _ IH]; constructor; [|exact IH]. split; [|eauto].
    destruct Hb as (d & scope & _ & _ & Hst & _). now apply stored_ie in Hst.
  - rewrite He. now destruct l.
Qed.
(* best determines the value *)
Theorem C34_best_is_unique : forall ops ip dom fs r w f w' f',
  best (apply_ops ops) ip dom fs r w f -> best (apply_ops ops) ip dom fs r w' f' -> w = w' /\ f = f'.
Proof. intros. eapply best_unique; eauto. Qed.
(* It is the heaviest of all, and at equal weights a value stored for the
   record's own domain is preferred to one stored for all domains. *)
Theorem C34_heaviest_then_own_domain : forall ops ip dom fs r w f, let c := apply_ops ops in best c ip dom fs r w f ->
  (forall d scope w' f', applies dom d -> scope_matches scope fs -> stored c ip d scope r = Some (w', f') -> w' <= w) /\
  (forall scope f', dom <> 0 -> scope_matches scope fs -> stored c ip dom scope r = Some (w, f') ->
   exists scope', scope_matches scope' fs /\ stored c ip dom scope' r = Some (w, f)).
Proof.
  intros ops ip dom fs r w f c (d & s & Ha & Hs & Hst & Hall). split.
  - intros d' s' w' f' Ha' Hs' Hst'. destruct (Hall _ _ _ _ Ha' Hs' Hst') as [H|[H _]]; lia.
  - intros s' f' Hd Hs' Hst'. destruct (Hall _ _ _ _ (or_intror eq_refl) Hs' Hst') as [H|[_ [H|H]]]; [lia| |].
    + injection H as <- <-. eauto.
    + destruct H as [[H _]|[<- _]]; [congruence|eauto].
Qed.
(* Hash map order changes at most the order of the answer. *)
Theorem C34_hash_order_is_irrelevant : forall ops ip pm pm' dom fs, mget N.eqb ip (apply_ops ops) = Some pm -> same_meta pm pm' ->
  match meta_fields pm dom fs, meta_fields pm' dom fs with
  | Some l, Some l' => Permutation l l'
  | None, None => True
  | _, _ => False
  end.
Proof.
  intros ops ip pm pm' dom fs Hi Hs.
  pose proof (mget_Forall _ N.eqb_spec _ _ _ _ (proj2 (wf_ops ops)) Hi) as Hw. cbn in Hw. pose proof (wf_meta_ok _ Hw) as Hok.
  assert (Hok' : meta_ok pm').
  { destruct Hok as (Hg & Hn & Hd), Hs as [Hsg (ds & Hp & Hsd)].
    assert (Hre : forall m m', reordered m m' -> fmaps_ok m -> fmaps_ok m').
    { unfold reordered, fmaps_ok. induction 1 as [|a b m m' [_ Hab] _ IH]; intros Hm; [constructor|]. inversion Hm; subst. constructor; [|auto].
      eapply Permutation_NoDup; [|eassumption]. unfold mkeys. now apply Permutation_map. }
    split; [eapply Hre; eauto|].
    assert (Hn' : NoDup (mkeys ds)) by (eapply Permutation_NoDup; [|exact Hn]; now apply Permutation_map).
    assert (Hd' : Forall (fun d => fmaps_ok (snd d)) ds) by (rewrite Forall_forall in *; intros x Hx; apply Hd; now apply (Permutation_in _ (Permutation_sym Hp))).
    assert (Hk : mkeys ds = mkeys (m_domains pm')) by (unfold mkeys; clear - Hsd; induction Hsd as [|a b ? ? [E _] _ IH]; [reflexivity|]; cbn; now rewrite E, IH).
    split; [now rewrite <- Hk|]. clear - Hsd Hd' Hre. induction Hsd as [|a b ? ? [_ E] _ IH]; [constructor|]. inversion Hd'; subst. constructor; [eapply Hre; eauto|auto]. }
  pose proof (same_selected pm pm' dom fs Hok Hok' Hs) as HP. unfold meta_fields.
  assert (Hf : is_nil (m_global pm) && is_nil (m_domains pm) = false) by (destruct Hw as (_ & _ & Hne); destruct (m_global pm), (m_domains pm); auto; now destruct Hne).
  assert (Hf' : is_nil (m_global pm') && is_nil (m_domains pm') = false).
  { destruct Hs as [Hsg (ds & Hp & Hsd)]. apply andb_false_iff in Hf. apply andb_false_iff. destruct Hf as [Hf|Hf]; [left|right].
    - now destruct Hsg.
    - destruct (m_domains pm) as [|e l] eqn:E; [discriminate|]. destruct Hsd; [|reflexivity]. apply Permutation_sym, Permutation_nil in Hp. discriminate. }
  rewrite Hf, Hf'. destruct (selected pm dom fs) as [|e l] eqn:E.
  - apply Permutation_nil in HP. rewrite HP. exact Logic.I.
  - destruct (selected pm' dom fs) as [|e' l'] eqn:E'; [apply Permutation_sym, Permutation_nil in HP; discriminate|]. cbn [is_nil].
    apply Permutation_map. unfold mvals. now apply Permutation_map.
Qed.

(* ---- C64 ---- *)
(* The documented rule "equal weights favour more specific scopes" holds for a
   scope whose field list extends another's at the end. *)
Theorem C64_longer_list_wins_partial : forall ops ip dom fs r w f d s g t f', let c := apply_ops ops in
  best c ip dom fs r w f -> applies dom d -> scope_matches (s ++ g :: t) fs ->
  stored c ip d (s ++ g :: t) r = Some (w, f') ->
  exists d' scope', applies dom d' /\ scope_matches scope' fs /\ stored c ip d' scope' r = Some (w, f) /\ (d', scope') <> (d, s).
Proof.
  intros ops ip dom fs r w f d s g t f' c (d0 & s0 & Ha & Hs & Hst & Hall) Ha' Hs' Hst'. exists d0, s0. repeat (split; [assumption|]).
  intros E. injection E as -> ->. destruct (Hall _ _ _ _ Ha' Hs' Hst') as [H|[_ [H|H]]]; [lia| |].
  - injection H as H. assert (Hl := f_equal (@length _) H). rewrite app_length in Hl. cbn in Hl. lia.
  - eapply before_asym; [exact H|]. apply prefix_before.
Qed.
(* It fails in general: of two matching scopes of one domain with equal weights
   the one with fewer fields wins if its first field is larger. *)
Theorem C64_fewer_fields_can_win_refuted :
  let c := apply_ops [Upsert 1 0 [(4, 7); (8, 1)] 10 [(82, 1)]; Upsert 1 0 [(8, 1)] 10 [(82, 2)]] in
  scope_matches [(4, 7); (8, 1)] [(4, 7); (8, 1)] /\ enrichment_fields c 1 5 [(4, 7); (8, 1)] = Some [(82, 2)] /\
  enrichment_fields (apply_ops [Upsert 1 0 [(8, 1)] 10 [(82, 2)]; Upsert 1 0 [(4, 7); (8, 1)] 10 [(82, 1)]]) 1 5 [(4, 7); (8, 1)] = Some [(82, 2)].
Proof. split; [intros r f H; exact H|]. split; vm_compute; reflexivity. Qed.

(* ---- C65 ---- *)
(* The same scope fields in another order are another scope, which a delete
   naming them does not reach, although both match the same records. *)
Theorem C65_order_of_scope_fields_matters_refuted :
  (forall fs, scope_matches [(4, 7); (8, 1)] fs <-> scope_matches [(8, 1); (4, 7)] fs) /\
  enrichment_fields (apply_ops [Upsert 1 0 [(4, 7); (8, 1)] 10 [(82, 1)]; DeleteAll 1 0 [(8, 1); (4, 7)] 10]) 1 5 [(4, 7); (8, 1)] = Some [(82, 1)] /\
  enrichment_fields (apply_ops [Upsert 1 0 [(4, 7); (8, 1)] 10 [(82, 1)]; DeleteAll 1 0 [(4, 7); (8, 1)] 10]) 1 5 [(4, 7); (8, 1)] = None.
Proof.
  split; [|split; vm_compute; reflexivity]. intros fs.
  assert (Ho : forall r, occurrence [(4, 7); (8, 1)] r = occurrence [(8, 1); (4, 7)] r).
  { intros [ie i]. unfold occurrence, ie_of. cbn [filter fst snd]. destruct (N.eqb_spec 4 ie), (N.eqb_spec 8 ie); try reflexivity. subst. discriminate. }
  unfold scope_matches. split; intros H r f Hf; apply H; [now rewrite Ho|now rewrite <- Ho].
Qed.

(* ---- C66 ---- *)
(* Enriching a packet keeps its data sets, in order, each with its data records
   in order; a record keeps its own fields, followed by the answer for them and
   the writer field. Only template sets and options records are left out. *)
Theorem C66_records_only_grow : forall writer c ip dom sets,
  enrich_packet writer c ip dom sets =
  flat_map (fun s => match s with
    | STemplates => []
    | SData id records =>
      [SData id (map (fun fs => ([], fs ++ match enrichment_fields c ip dom fs with Some l => l | None => [] end ++ [writer]))
                     (flat_map (fun r : record => match fst r with [] => [snd r] | _ => [] end) records))]
    end) sets.
Proof.
  intros. unfold enrich_packet. induction sets as [|s sets IH]; [reflexivity|]. cbn [flat_map]. rewrite IH. f_equal. destruct s as [id records|]; [|reflexivity].
  unfold enrich_set. do 2 f_equal. induction records as [|[sc fs] records IHr]; [reflexivity|]. cbn [filter flat_map fst snd]. destruct sc as [|x sc]; cbn [is_nil].
  - cbn [map app]. rewrite IHr. reflexivity.
  - cbn [app]. exact IHr.
Qed.

Print Assumptions C32_last_of_the_heaviest. Print Assumptions C32_one_operation. Print Assumptions C32_values_were_upserted.
Print Assumptions C33_delete_named. Print Assumptions C33_delete_all. Print Assumptions C33_nothing_else_changes. Print Assumptions C33_no_empty_containers.
Print Assumptions C34_best_values. Print Assumptions C34_best_is_unique. Print Assumptions C34_heaviest_then_own_domain. Print Assumptions C34_hash_order_is_irrelevant.
Print Assumptions C64_longer_list_wins_partial. Print Assumptions C64_fewer_fields_can_win_refuted. Print Assumptions C65_order_of_scope_fields_matters_refuted.
Print Assumptions C66_records_only_grow.

(* ---- the hypotheses are met ---- *)
Definition ex_ops : list op :=
  [Upsert 1 0 [] 10 [(82, 1); (82, 5); (14, 3)]; Upsert 1 7 [(10, 2)] 10 [(82, 2)]; Upsert 1 7 [(10, 3)] 20 [(82, 9)];
   Upsert 2 0 [] 5 [(82, 4)]; Upsert 1 0 [] 10 [(82, 6)]; Upsert 1 0 [] 3 [(14, 8)]; Delete 2 0 [] 5 [82]].
Example C32_nonvacuous :
  Forall is_upsert [Upsert 1 0 [] 10 [(82, 6)]; Upsert 1 0 [] 3 [(82, 8)]] /\
  stored (apply_ops ex_ops) 1 0 [] (82, 0) = Some (10, (82, 6)) /\ stored (apply_ops ex_ops) 1 0 [] (82, 1) = Some (10, (82, 5)) /\
  stored (apply_ops ex_ops) 1 0 [] (14, 0) = Some (10, (14, 3)) /\ stored (apply_ops ex_ops) 1 7 [(10, 2)] (82, 0) = Some (10, (82, 2)).
Proof. split; [repeat constructor|]. repeat split; reflexivity. Qed.
Example C33_nonvacuous : map fst (apply_ops ex_ops) = [1] /\ apply_ops (ex_ops ++ [DeleteAll 1 0 [] 10; Delete 1 7 [(10, 2)] 50 [82]; DeleteAll 1 7 [(10, 3)] 20]) = [] /\
  stored (apply_ops (ex_ops ++ [DeleteAll 1 0 [] 9])) 1 0 [] (82, 0) = Some (10, (82, 6)).
Proof. repeat split; reflexivity. Qed.
Example C34_nonvacuous :
  enrichment_fields (apply_ops ex_ops) 1 7 [(10, 2); (1, 100)] = Some [(82, 2); (82, 5); (14, 3)] /\
  enrichment_fields (apply_ops ex_ops) 1 8 [(10, 2); (1, 100)] = Some [(82, 6); (82, 5); (14, 3)] /\
  enrichment_fields (apply_ops ex_ops) 1 7 [(10, 3); (1, 100)] = Some [(82, 9); (82, 5); (14, 3)] /\
  enrichment_fields (apply_ops ex_ops) 2 7 [(10, 3)] = None.
Proof. repeat split; reflexivity. Qed.
Example C66_nonvacuous :
  enrich_packet (200, 77) (apply_ops ex_ops) 1 7 [STemplates; SData 256 [([], [(10, 2); (1, 100)]); ([(149, 1)], [(10, 2)])]] =
  [SData 256 [([], [(10, 2); (1, 100); (82, 2); (82, 5); (14, 3); (200, 77)])]].
Proof. reflexivity. Qed.
