(** * Proofs about a stage *)

From Coq Require Import List Arith Bool Lia Permutation.
From Verif Require Import StModel StSpec.
Import ListNotations.

Lemma Some_inj : forall {A} (x y : A), Some x = Some y -> x = y.
Proof. intros A x y H. congruence. Qed.

Lemma subseq_snoc_skip : forall {A} (p l : list A) x,
  subseq p l -> subseq p (l ++ [x]).
Proof.
  intros A p l x H. induction H; cbn.
  - apply sub_skip, sub_nil.
  - apply sub_skip. assumption.
  - apply sub_keep. assumption.
Qed.

Lemma subseq_snoc_keep : forall {A} (p l : list A) x,
  subseq p l -> subseq (p ++ [x]) (l ++ [x]).
Proof.
  intros A p l x H. induction H; cbn.
  - apply sub_keep, sub_nil.
  - apply sub_skip. assumption.
  - apply sub_keep. assumption.
Qed.

Lemma subseq_nil : forall {A} (l : list A), subseq [] l.
Proof. induction l; constructor; assumption. Qed.

Lemma subseq_app : forall {A} (p l r : list A), subseq p l -> subseq p (l ++ r).
Proof.
  intros A p l r H. induction H; cbn.
  - apply subseq_nil.
  - apply sub_skip. assumption.
  - apply sub_keep. assumption.
Qed.

Section Proofs.
Variables In Out Op Cache : Type.
Variable apply : Cache -> Op -> Cache.
Variable enrich : Cache -> In -> option Out.
Variable fatal : bool.
Notation state' := (state In Out Op Cache).
Notation stp := (step apply enrich fatal).
Notation runs := (run apply enrich fatal).
Notation outs := (outputs apply enrich).

(** ** Logs *)

Fixpoint cafter (c : Cache) (log : list (Op + In)) : Cache :=
  match log with
  | [] => c
  | inl op :: rest => cafter (apply c op) rest
  | inr _ :: rest => cafter c rest
  end.

Lemma cafter_snoc : forall log c e,
  cafter c (log ++ [e]) =
  match e with inl op => apply (cafter c log) op | inr _ => cafter c log end.
Proof.
  induction log as [|[op|x] log IH]; intros c e; cbn; [destruct e; reflexivity|..];
    apply IH.
Qed.

Lemma outputs_snoc : forall log c e,
  outs c (log ++ [e]) =
  outs c log ++
  match e with
  | inl _ => []
  | inr x => match enrich (cafter c log) x with Some o => [o] | None => [] end
  end.
Proof.
  induction log as [|[op|x] log IH]; intros c e; cbn.
  - destruct e as [op|x]; [reflexivity|]. destruct (enrich c x); reflexivity.
  - apply IH.
  - destruct (enrich c x); cbn; rewrite IH; reflexivity.
Qed.

Lemma failures_snoc : forall log c e,
  failures apply enrich c (log ++ [e]) =
  failures apply enrich c log +
  match e with
  | inl _ => 0
  | inr x => match enrich (cafter c log) x with Some o => 0 | None => 1 end
  end.
Proof.
  induction log as [|[op|x] log IH]; intros c e; cbn.
  - destruct e as [op|x]; [reflexivity|]. destruct (enrich c x); reflexivity.
  - apply IH.
  - destruct (enrich c x); cbn; rewrite IH; reflexivity.
Qed.

Lemma flows_snoc : forall (log : list (Op + In)) e,
  flows_of (log ++ [e]) =
  flows_of log ++ match e with inl _ => [] | inr x => [x] end.
Proof.
  induction log as [|[op|x] log IH]; intros e; cbn;
    [destruct e; reflexivity|apply IH|rewrite IH; reflexivity].
Qed.

Lemma updates_snoc : forall (log : list (Op + In)) e,
  updates_of (log ++ [e]) =
  updates_of log ++ match e with inl op => [op] | inr x => [] end.
Proof.
  induction log as [|[op|x] log IH]; intros e; cbn;
    [destruct e; reflexivity|rewrite IH; reflexivity|apply IH].
Qed.

Lemma offered_app : forall (a b : list (label In Op)),
  offered (a ++ b) = offered a ++ offered b.
Proof.
  induction a as [|[] a IH]; intros b; cbn; rewrite ?IH; reflexivity.
Qed.

Lemma updates_app : forall (a b : list (label In Op)),
  updates (a ++ b) = updates a ++ updates b.
Proof.
  induction a as [|[] a IH]; intros b; cbn; rewrite ?IH; reflexivity.
Qed.

Lemma run_snoc : forall ls (s : state') l,
  runs s (ls ++ [l]) =
  match runs s ls with Some s' => stp s' l | None => None end.
Proof.
  induction ls as [|a ls IH]; intros s l; cbn [app run].
  - destruct (stp s l); reflexivity.
  - destruct (stp s a); [apply IH|reflexivity].
Qed.

(** An invariant that may mention the history. *)
Lemma run_inv : forall (I : list (label In Op) -> state' -> Prop) s0,
  I [] s0 ->
  (forall ls s l s', I ls s -> stp s l = Some s' -> I (ls ++ [l]) s') ->
  forall ls s, runs s0 ls = Some s -> I ls s.
Proof.
  intros I s0 H0 K ls. induction ls as [|l ls IH] using rev_ind; intros s R.
  - cbn in R. apply Some_inj in R. subst s. exact H0.
  - rewrite run_snoc in R. destruct (runs s0 ls) as [s1|] eqn:E; [|discriminate].
    eapply K; [apply IH; reflexivity|exact R].
Qed.

(** One that holds as long as the labels are of a kind. *)
Lemma run_kept : forall (I : state' -> Prop) (ok : label In Op -> Prop),
  (forall s l s', ok l -> I s -> stp s l = Some s' -> I s') ->
  forall ls s s', Forall ok ls -> I s -> runs s ls = Some s' -> I s'.
Proof.
  intros I ok K ls. induction ls as [|l ls IH]; intros s s' F H R; cbn in R.
  - congruence.
  - destruct (stp s l) as [s1|] eqn:E; [|discriminate].
    inversion F; subst. eauto.
Qed.

(** ** The invariant *)

Definition pend (p : phase Out) : list Out :=
  match p with Sending o => [o] | _ => [] end.

Definition sound (c0 : Cache) (s : state') : Prop :=
  (send_error s = 0 /\
   accepted s ++ pend (at_phase s) = outs c0 (processed s)) \/
  (send_error s = 1 /\ handle_alive s = false /\
   (at_phase s = Idle \/ at_phase s = Ended Asked \/
    at_phase s = Ended NoHandle \/ at_phase s = Ended OutputClosed) /\
   exists o, accepted s ++ [o] = outs c0 (processed s)).

Record Inv (c0 : Cache) (ls : list (label In Op)) (s : state') : Prop := mkInv {
  I_c : cache s = cafter c0 (processed s);
  I_s : sound c0 s;
  I_f : flows_of (processed s) ++ in_queue s = offered ls;
  I_u : updates_of (processed s) ++ ops_queue s = updates ls;
  I_e : at_phase s = Ended InputClosed -> in_queue s = [] /\ ops_queue s = [];
  I_r : received s = length (flows_of (processed s));
  I_o : received_ops s = length (updates_of (processed s));
  I_x : enrich_error s = failures apply enrich c0 (processed s);
  I_n : sent s = length (accepted s)
}.

Lemma inv_start : forall cap c, Inv c [] (start cap c).
Proof.
  intros cap c. constructor; cbn; auto; try discriminate.
  left. auto.
Qed.

Lemma inv_turn : forall c0 ls s s',
  Inv c0 ls s -> turn apply enrich fatal s = Some s' -> Inv c0 (ls ++ [Turn]) s'.
Proof.
  intros c0 ls s s' [Ic Is If Iu Ie Ir Io Ix In'] H.
  assert (E1 : offered (ls ++ [Turn]) = offered ls)
    by (rewrite offered_app; cbn; apply app_nil_r).
  assert (E2 : updates (ls ++ [Turn]) = updates ls)
    by (rewrite updates_app; cbn; apply app_nil_r).
  unfold turn in H. destruct (at_phase s) as [|o|e] eqn:P; [| |discriminate].
  - destruct (commands s) as [|n].
    2:{ apply Some_inj in H. subst s'.
        constructor; cbn; rewrite ?E1, ?E2; auto; [|discriminate].
        destruct Is as [[A B]|(A & B & _ & D)].
        - left. rewrite P in B. auto.
        - right. cbn. auto 10. }
    destruct (handle_alive s) eqn:HA; cbn [negb] in H.
    2:{ apply Some_inj in H. subst s'.
        constructor; cbn; rewrite ?E1, ?E2; auto; [|discriminate].
        destruct Is as [[A B]|(A & B & _ & D)].
        - left. rewrite P in B. auto.
        - right. cbn. auto 10. }
    assert (S0 : send_error s = 0 /\ accepted s = outs c0 (processed s)).
    { destruct Is as [[A B]|(_ & B & _)]; [|congruence].
      rewrite P in B. cbn in B. rewrite app_nil_r in B. auto. }
    destruct S0 as [S0 S1].
    destruct (ops_queue s) as [|op rest] eqn:Q.
    + destruct (in_queue s) as [|x rest] eqn:Qi.
      * destruct (in_closed s); [|discriminate]. apply Some_inj in H. subst s'.
        constructor; cbn; rewrite ?E1, ?E2, ?Q, ?Qi; auto.
        left. cbn. rewrite app_nil_r. auto.
      * destruct (enrich (cache s) x) as [o|] eqn:En; apply Some_inj in H; subst s';
          (constructor; cbn;
           rewrite ?cafter_snoc, ?flows_snoc, ?updates_snoc, ?failures_snoc, ?E1, ?E2;
           auto; try discriminate).
        -- left. split; [exact S0|]. cbn. rewrite outputs_snoc, <- Ic, En, S1.
           reflexivity.
        -- rewrite <- app_assoc. exact If.
        -- rewrite app_nil_r. exact Iu.
        -- rewrite app_length, Ir. cbn. lia.
        -- rewrite app_nil_r. exact Io.
        -- rewrite <- Ic, En, Ix. lia.
        -- left. split; [exact S0|]. cbn. rewrite outputs_snoc, <- Ic, En, S1.
           reflexivity.
        -- rewrite <- app_assoc. exact If.
        -- rewrite app_nil_r. exact Iu.
        -- rewrite app_length, Ir. cbn. lia.
        -- rewrite app_nil_r. exact Io.
        -- rewrite <- Ic, En, Ix. lia.
    + apply Some_inj in H. subst s'.
      constructor; cbn;
        rewrite ?cafter_snoc, ?flows_snoc, ?updates_snoc, ?failures_snoc, ?E1, ?E2;
        auto; try discriminate.
      * rewrite Ic. reflexivity.
      * left. split; [exact S0|]. cbn. rewrite outputs_snoc, S1. reflexivity.
      * rewrite app_nil_r. exact If.
      * rewrite <- app_assoc. exact Iu.
      * rewrite app_nil_r. exact Ir.
      * rewrite app_length, Io. cbn. lia.
      * lia.
  - assert (S0 : send_error s = 0 /\ accepted s ++ [o] = outs c0 (processed s)).
    { destruct Is as [[A B]|(_ & _ & [C|[C|[C|C]]] & _)]; try congruence.
      rewrite P in B. auto. }
    destruct S0 as [S0 S1].
    destruct (receivers s) eqn:R; cbn [negb] in H.
    + destruct (Nat.ltb (length (out_queue s)) (capacity s)); [|discriminate].
      apply Some_inj in H. subst s'.
      constructor; cbn; rewrite ?E1, ?E2; auto; try discriminate.
      * left. cbn. rewrite app_nil_r. auto.
      * rewrite app_length, In'. cbn. lia.
    + apply Some_inj in H. subst s'.
      unfold receivers in R. apply orb_false_elim in R. destruct R as [R1 _].
      constructor; cbn; rewrite ?E1, ?E2; auto.
      * right. cbn. split; [lia|]. split; [exact R1|].
        split; [destruct fatal; auto 10|]. exists o. exact S1.
      * destruct fatal; discriminate.
Qed.

Ltac eqs ls l :=
  assert (E1 : offered (ls ++ [l]) = offered ls ++ offered [l])
    by apply offered_app;
  assert (E2 : updates (ls ++ [l]) = updates ls ++ updates [l])
    by apply updates_app;
  cbn [offered updates] in E1, E2; rewrite ?app_nil_r in E1; rewrite ?app_nil_r in E2.

Lemma inv_step : forall c0 ls s l s',
  Inv c0 ls s -> stp s l = Some s' -> Inv c0 (ls ++ [l]) s'.
Proof.
  intros c0 ls s l s' I H. destruct l; cbn [step] in H.
  - eapply inv_turn; eauto.
  - eqs ls (@Offer In Op x). destruct I as [Ic Is If Iu Ie Ir Io Ix In'].
    destruct (in_closed s); [discriminate|].
    destruct (has_ended s) eqn:HE; [discriminate|].
    apply Some_inj in H; subst s'.
    constructor; cbn; rewrite ?E1, ?E2; try assumption.
    + rewrite app_assoc, If. reflexivity.
    + intros P. unfold has_ended in HE. rewrite P in HE. discriminate.
  - eqs ls (@CloseInput In Op). destruct I as [Ic Is If Iu Ie Ir Io Ix In'].
    destruct (in_closed s); [discriminate|]. apply Some_inj in H; subst s'.
    constructor; cbn; rewrite ?E1, ?E2; auto.
  - eqs ls (@Update In Op op). destruct I as [Ic Is If Iu Ie Ir Io Ix In'].
    destruct (handle_alive s); cbn [andb] in H; [|discriminate].
    destruct (has_ended s) eqn:HE; cbn [negb] in H; [discriminate|].
    apply Some_inj in H; subst s'.
    constructor; cbn; rewrite ?E1, ?E2; try assumption.
    + rewrite app_assoc, Iu. reflexivity.
    + intros P. unfold has_ended in HE. rewrite P in HE. discriminate.
  - eqs ls (@Shutdown In Op). destruct I as [Ic Is If Iu Ie Ir Io Ix In'].
    destruct (handle_alive s) eqn:HA; cbn [andb] in H; [|discriminate].
    destruct (negb (has_ended s)); cbn [andb] in H; [|discriminate].
    destruct (Nat.ltb (commands s) 10); [|discriminate].
    apply Some_inj in H; subst s'.
    constructor; cbn; rewrite ?E1, ?E2; auto.
    destruct Is as [A|(_ & B & _)]; [|congruence]. left. exact A.
  - eqs ls (@DropHandle In Op). destruct I as [Ic Is If Iu Ie Ir Io Ix In'].
    destruct (handle_alive s) eqn:HA; [|discriminate]. apply Some_inj in H; subst s'.
    constructor; cbn; rewrite ?E1, ?E2; auto.
    destruct Is as [A|(_ & B & _)]; [|congruence]. left. exact A.
  - eqs ls (@Subscribe In Op). destruct I as [Ic Is If Iu Ie Ir Io Ix In'].
    destruct (handle_alive s) eqn:HA; [|discriminate]. apply Some_inj in H; subst s'.
    constructor; cbn; rewrite ?E1, ?E2; auto.
  - eqs ls (@Unsubscribe In Op k). destruct I as [Ic Is If Iu Ie Ir Io Ix In'].
    destruct (nth_error (subscribers s) k) as [b|]; [|discriminate].
    destruct (alive b); [|discriminate]. apply Some_inj in H; subst s'.
    constructor; cbn; rewrite ?E1, ?E2; auto.
  - eqs ls (@Take In Op k). destruct I as [Ic Is If Iu Ie Ir Io Ix In'].
    destruct (nth_error (subscribers s) k) as [b|]; [|discriminate].
    destruct (out_queue s) as [|o rest]; [discriminate|].
    destruct (alive b); [|discriminate]. apply Some_inj in H; subst s'.
    constructor; cbn; rewrite ?E1, ?E2; auto.
Qed.

Lemma run_Inv : forall cap c ls s,
  runs (start cap c) ls = Some s -> Inv c ls s.
Proof.
  intros cap c. apply run_inv; [apply inv_start|].
  intros ls s l s'. apply inv_step.
Qed.

(** ** Subscribers *)

Lemma nth_set_nth : forall {A} (l : list A) k x j y,
  nth_error (set_nth l k x) j = Some y ->
  (j = k /\ y = x /\ exists z, nth_error l k = Some z) \/
  (j <> k /\ nth_error l j = Some y).
Proof.
  induction l as [|a l IH]; intros [|k] x [|j] y H; cbn in *; try discriminate.
  - injection H as <-. left. split; auto. split; auto. eauto.
  - right. auto.
  - injection H as <-. right. auto.
  - destruct (IH k x j y H) as [(-> & -> & z & Z)|[N E]]; [left|right]; auto.
    split; auto. split; auto. eauto.
Qed.

Lemma concat_take : forall (l : list (subscriber Out)) k b o r,
  nth_error l k = Some b ->
  Permutation (concat (map got (set_nth l k (mk_sub (got b ++ [o]) r))))
    (concat (map got l) ++ [o]).
Proof.
  induction l as [|a l IH]; intros [|k] b o r H; cbn in *; try discriminate.
  - injection H as ->. rewrite <- !app_assoc. apply Permutation_app_head.
    apply Permutation_app_comm.
  - rewrite <- app_assoc. apply Permutation_app_head. apply IH. exact H.
Qed.

Lemma concat_same : forall (l : list (subscriber Out)) k b r,
  nth_error l k = Some b ->
  map got (set_nth l k (mk_sub (got b) r)) = map got l.
Proof.
  induction l as [|a l IH]; intros [|k] b r H; cbn in *; try discriminate.
  - injection H as ->. reflexivity.
  - f_equal. apply IH. exact H.
Qed.

Lemma length_set : forall {A} (l : list A) k x, length (set_nth l k x) = length l.
Proof. induction l as [|a l IH]; intros [|k] x; cbn; auto. Qed.

Record Subs (s : state') : Prop := mkSubs {
  S_p : Permutation (concat (map got (subscribers s)) ++ out_queue s) (accepted s);
  S_t : exists taken, accepted s = taken ++ out_queue s /\
          (forall b, List.In b (subscribers s) -> subseq (got b) taken) /\
          (subscribers s = [] -> taken = []) /\
          (forall b, subscribers s = [b] -> got b = taken)
}.

Lemma subs_same : forall s s' : state',
  Subs s -> subscribers s' = subscribers s -> out_queue s' = out_queue s ->
  accepted s' = accepted s -> Subs s'.
Proof.
  intros s s' [P T] A B C. constructor; rewrite ?A, ?B, ?C; assumption.
Qed.

Lemma subs_step : forall s l s', Subs s -> stp s l = Some s' -> Subs s'.
Proof.
  intros s l s' I H. destruct l; cbn [step] in H.
  - unfold turn in H. destruct (at_phase s) as [|o|e]; [| |discriminate].
    + destruct (commands s); [|apply Some_inj in H; subst s'; eapply subs_same; eauto].
      destruct (handle_alive s); cbn [negb] in H;
        [|apply Some_inj in H; subst s'; eapply subs_same; eauto].
      destruct (ops_queue s) as [|op rest];
        [|apply Some_inj in H; subst s'; eapply subs_same; eauto].
      destruct (in_queue s) as [|x rest].
      * destruct (in_closed s); [|discriminate].
        apply Some_inj in H; subst s'; eapply subs_same; eauto.
      * destruct (enrich (cache s) x); apply Some_inj in H; subst s';
          eapply subs_same; eauto.
    + destruct (receivers s); cbn [negb] in H.
      * destruct (Nat.ltb (length (out_queue s)) (capacity s)); [|discriminate].
        apply Some_inj in H; subst s'. destruct I as [P (t & E & T1 & T2 & T3)].
        constructor; cbn.
        -- rewrite app_assoc. apply Permutation_app_tail. exact P.
        -- exists t. split; [rewrite E, <- app_assoc; reflexivity|]. auto.
      * apply Some_inj in H; subst s'; eapply subs_same; eauto.
  - destruct (in_closed s || has_ended s); [discriminate|].
    apply Some_inj in H; subst s'; eapply subs_same; eauto.
  - destruct (in_closed s); [discriminate|].
    apply Some_inj in H; subst s'; eapply subs_same; eauto.
  - destruct (handle_alive s && negb (has_ended s)); [|discriminate].
    apply Some_inj in H; subst s'; eapply subs_same; eauto.
  - destruct (handle_alive s && negb (has_ended s) && Nat.ltb (commands s) 10);
      [|discriminate].
    apply Some_inj in H; subst s'; eapply subs_same; eauto.
  - destruct (handle_alive s); [|discriminate].
    apply Some_inj in H; subst s'; eapply subs_same; eauto.
  - destruct (handle_alive s); [|discriminate]. apply Some_inj in H; subst s'.
    destruct I as [P (t & E & T1 & T2 & T3)]. constructor; cbn.
    + rewrite map_app, concat_app. cbn. rewrite app_nil_r. exact P.
    + exists t. split; [exact E|]. split; [|split].
      * intros b Hb. apply in_app_or in Hb. destruct Hb as [Hb|[<-|[]]]; auto.
        apply subseq_nil.
      * intros X. destruct (subscribers s); discriminate.
      * intros b X. destruct (subscribers s) as [|b0 [|]]; try discriminate.
        cbn in X. injection X as <-. cbn. symmetry. apply T2. reflexivity.
  - destruct (nth_error (subscribers s) k) as [b|] eqn:N; [|discriminate].
    destruct (alive b); [|discriminate]. apply Some_inj in H; subst s'.
    destruct I as [P (t & E & T1 & T2 & T3)]. constructor; cbn.
    + rewrite (concat_same _ _ _ _ N). exact P.
    + exists t. split; [exact E|]. split; [|split].
      * intros c Hc. apply In_nth_error in Hc. destruct Hc as [j Hj].
        destruct (nth_set_nth _ _ _ _ _ Hj) as [(-> & -> & _)|[_ Hj']].
        -- cbn. apply T1. eapply nth_error_In; eauto.
        -- apply T1. eapply nth_error_In; eauto.
      * intros X. apply T2. destruct (subscribers s) as [|b0 r]; [reflexivity|].
        destruct k; discriminate.
      * intros c X. destruct (subscribers s) as [|b0 [|]]; destruct k as [|[|]];
          try discriminate. cbn in X, N. injection X as <-. injection N as ->.
        cbn. apply T3. reflexivity.
  - destruct (nth_error (subscribers s) k) as [b|] eqn:N; [|discriminate].
    destruct (out_queue s) as [|o rest] eqn:Q; [discriminate|].
    destruct (alive b); [|discriminate]. apply Some_inj in H; subst s'.
    destruct I as [P (t & E & T1 & T2 & T3)]. rewrite Q in P, E.
    constructor; cbn.
    + eapply Permutation_trans; [|exact P].
      eapply Permutation_trans;
        [apply Permutation_app_tail; apply (concat_take _ _ _ o true N)|].
      rewrite <- app_assoc. reflexivity.
    + exists (t ++ [o]). split; [rewrite E, <- app_assoc; reflexivity|].
      split; [|split].
      * intros c Hc. apply In_nth_error in Hc. destruct Hc as [j Hj].
        destruct (nth_set_nth _ _ _ _ _ Hj) as [(-> & -> & _)|[_ Hj']].
        -- cbn. apply subseq_snoc_keep. apply T1. eapply nth_error_In; eauto.
        -- apply subseq_snoc_skip. apply T1. eapply nth_error_In; eauto.
      * intros X. destruct (subscribers s) as [|b0 r]; destruct k; discriminate.
      * intros c X. destruct (subscribers s) as [|b0 [|]]; destruct k as [|[|]];
          try discriminate. cbn in X, N. injection X as <-. injection N as ->.
        cbn. f_equal. apply T3. reflexivity.
Qed.

Lemma run_Subs : forall cap c ls s,
  runs (start cap c) ls = Some s -> Subs s.
Proof.
  intros cap c ls s R.
  refine (run_kept Subs (fun _ => True) _ ls (start cap c) s _ _ R).
  - intros s0 l s1 _. apply subs_step.
  - apply Forall_forall. auto.
  - constructor; cbn; [constructor|]. exists []. split; [reflexivity|].
    split; [intros b []|]. split; [reflexivity|discriminate].
Qed.

Lemma two_lengths : forall (l : list (subscriber Out)) j k a b,
  j <> k -> nth_error l j = Some a -> nth_error l k = Some b ->
  length (got a) + length (got b) <= length (concat (map got l)).
Proof.
  assert (One : forall (l : list (subscriber Out)) j a, nth_error l j = Some a ->
            length (got a) <= length (concat (map got l))).
  { induction l as [|x l IH]; intros [|j] a H; cbn in *; try discriminate;
      rewrite app_length.
    - injection H as ->. lia.
    - specialize (IH _ _ H). lia. }
  induction l as [|x l IH]; intros [|j] [|k] a b D A B; cbn in *; try discriminate;
    rewrite app_length.
  - congruence.
  - injection A as ->. specialize (One _ _ _ B). lia.
  - injection B as ->. specialize (One _ _ _ A). lia.
  - assert (j <> k) by congruence. specialize (IH _ _ _ _ H A B). lia.
Qed.

(** ** A full output *)

Definition no_take (l : label In Op) : Prop :=
  match l with Take _ | DropHandle => False | _ => True end.

Definition blocked (o : Out) (s : state') : Prop :=
  at_phase s = Sending o /\ handle_alive s = true /\
  capacity s <= length (out_queue s).

Lemma blocked_step : forall o s l s',
  no_take l -> blocked o s -> stp s l = Some s' -> blocked o s'.
Proof.
  intros o s l s' K (P & HA & L) H. destruct l; cbn [step] in H.
  - exfalso. unfold turn in H. rewrite P in H. unfold receivers in H.
    rewrite HA in H. cbn [orb negb] in H.
    replace (Nat.ltb (length (out_queue s)) (capacity s)) with false in H;
      [discriminate|]. symmetry. apply Nat.ltb_ge. exact L.
  - destruct (in_closed s || has_ended s); [discriminate|].
    apply Some_inj in H; subst s'; unfold blocked; cbn; auto.
  - destruct (in_closed s); [discriminate|].
    apply Some_inj in H; subst s'; unfold blocked; cbn; auto.
  - destruct (handle_alive s && negb (has_ended s)); [|discriminate].
    apply Some_inj in H; subst s'; unfold blocked; cbn; auto.
  - destruct (handle_alive s && negb (has_ended s) && Nat.ltb (commands s) 10);
      [|discriminate].
    apply Some_inj in H; subst s'; unfold blocked; cbn; auto.
  - destruct K.
  - rewrite HA in H.
    apply Some_inj in H; subst s'; unfold blocked; cbn; auto.
  - destruct (nth_error (subscribers s) k) as [b|]; [|discriminate].
    destruct (alive b); [|discriminate].
    apply Some_inj in H; subst s'; unfold blocked; cbn; auto.
  - destruct K.
Qed.

(** ** After a shutdown command *)

Definition left_over (p : phase Out) : nat :=
  match p with Idle => 1 | Sending _ => 2 | Ended _ => 0 end.

Lemma turn_asked : forall s s',
  0 < commands s -> turn apply enrich fatal s = Some s' ->
  left_over (at_phase s') < left_over (at_phase s) /\ commands s' = commands s /\
  processed s' = processed s.
Proof.
  intros s s' C H. unfold turn in H. destruct (at_phase s) as [|o|e]; [| |discriminate].
  - destruct (commands s) as [|n] eqn:E; [lia|]. apply Some_inj in H; subst s'.
    cbn. auto.
  - destruct (receivers s); cbn [negb] in H.
    + destruct (Nat.ltb (length (out_queue s)) (capacity s)); [|discriminate].
      apply Some_inj in H; subst s'. cbn. auto.
    + apply Some_inj in H; subst s'. cbn. destruct fatal; cbn; auto.
Qed.

Lemma env_keeps : forall s l s',
  is_turn l = false -> stp s l = Some s' ->
  at_phase s' = at_phase s /\ commands s <= commands s' /\
  processed s' = processed s.
Proof.
  intros s l s' O H. destruct l; try discriminate O; cbn [step] in H.
  - destruct (in_closed s || has_ended s); [discriminate|].
    apply Some_inj in H; subst s'; auto.
  - destruct (in_closed s); [discriminate|].
    apply Some_inj in H; subst s'; auto.
  - destruct (handle_alive s && negb (has_ended s)); [|discriminate].
    apply Some_inj in H; subst s'; auto.
  - destruct (handle_alive s && negb (has_ended s) && Nat.ltb (commands s) 10);
      [|discriminate].
    apply Some_inj in H; subst s'; cbn; auto.
  - destruct (handle_alive s); [|discriminate]. apply Some_inj in H; subst s'; auto.
  - destruct (handle_alive s); [|discriminate]. apply Some_inj in H; subst s'; auto.
  - destruct (nth_error (subscribers s) k) as [b|]; [|discriminate].
    destruct (alive b); [|discriminate]. apply Some_inj in H; subst s'; auto.
  - destruct (nth_error (subscribers s) k) as [b|]; [|discriminate].
    destruct (out_queue s) as [|o rest]; [discriminate|].
    destruct (alive b); [|discriminate]. apply Some_inj in H; subst s'; auto.
Qed.

Lemma asked_run : forall ls s s',
  0 < commands s -> runs s ls = Some s' ->
  length (filter is_turn ls) <= left_over (at_phase s) /\
  processed s' = processed s.
Proof.
  induction ls as [|l ls IH]; intros s s' C R; cbn [run] in R.
  - apply Some_inj in R. subst s'. cbn. split; [lia|reflexivity].
  - destruct (stp s l) as [s1|] eqn:E; [|discriminate]. cbn [filter].
    destruct (is_turn l) eqn:T.
    + destruct l; try discriminate T. cbn [step] in E.
      destruct (turn_asked _ _ C E) as (A & B & D).
      rewrite <- B in C. destruct (IH _ _ C R) as [X Y]. cbn [length].
      split; [lia|congruence].
    + destruct (env_keeps _ _ _ T E) as (A & B & D).
      assert (C' : 0 < commands s1) by lia.
      destruct (IH _ _ C' R) as [X Y]. rewrite A in X. split; [exact X|congruence].
Qed.

End Proofs.
