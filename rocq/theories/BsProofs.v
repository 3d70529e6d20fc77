(* Invariants of the BMP collector service. *)
From Coq Require Import List NArith Bool Lia Arith Permutation.
From Verif Require Import BsModel BsSpec.
Import ListNotations.
Local Open Scope N_scope.

Section Actor.
Variable hash : N -> N.
Notation state := (state hash).

Lemma run_app a es fs : fst (run hash a (es ++ fs)) = fst (run hash (fst (run hash a es)) fs).
Proof.
  revert a. induction es as [|e es IH]; intros a; [reflexivity|]. cbn [app run].
  destruct (step hash a e) as [a' x]. specialize (IH a'). destruct (run hash a' (es ++ fs)) as [b xs] eqn:E1.
  destruct (run hash a' es) as [c ys] eqn:E2. cbn [fst] in *. exact IH.
Qed.
Lemma state_snoc es e : state (es ++ [e]) = fst (step hash (state es) e).
Proof.
  unfold BsSpec.state. rewrite run_app. cbn [run]. destruct (step hash (fst (run hash init es)) e). reflexivity.
Qed.
Lemma state_ind (P : list event -> actor -> Prop) : P [] init ->
  (forall es e, P es (state es) -> P (es ++ [e]) (fst (step hash (state es) e))) -> forall es, P es (state es).
Proof.
  intros H0 HS es. induction es as [|e es IH] using rev_ind; [exact H0|]. rewrite state_snoc. now apply HS.
Qed.

(* ---------------- updating a task ---------------- *)
Definition upd (l : list task) (t : nat) (x : task) : list task := firstn t l ++ x :: skipn (S t) l.
Lemma nth_upd l t x u : (t < length l)%nat -> nth_error (upd l t x) u = if Nat.eqb u t then Some x else nth_error l u.
Proof.
  intros H. unfold upd. assert (Hf : length (firstn t l) = t) by (rewrite firstn_length; lia).
  destruct (Nat.eqb_spec u t) as [->|Hne].
  - rewrite nth_error_app2 by lia. rewrite Hf, Nat.sub_diag. reflexivity.
  - destruct (Nat.lt_ge_cases u t).
    + rewrite nth_error_app1 by lia. rewrite <- (firstn_skipn t l) at 2. now rewrite nth_error_app1 by lia.
    + rewrite nth_error_app2 by lia. rewrite Hf. destruct (u - t)%nat as [|k] eqn:E; [lia|]. cbn [nth_error].
      rewrite <- (firstn_skipn (S t) l) at 2. rewrite nth_error_app2; rewrite firstn_length; [f_equal; lia|lia].
Qed.
Lemma upd_length l t x : (t < length l)%nat -> length (upd l t x) = length l.
Proof. intros H. unfold upd. rewrite app_length, firstn_length. cbn [length]. rewrite skipn_length. lia. Qed.
Lemma in_upd l t x y : In y (upd l t x) -> y = x \/ In y l.
Proof.
  unfold upd. rewrite in_app_iff. cbn [In]. intros [H|[H|H]]; [right|left; congruence|right].
  - rewrite <- (firstn_skipn t l). apply in_or_app. now left.
  - rewrite <- (firstn_skipn (S t) l). apply in_or_app. now right.
Qed.
Lemma nth_lt {A} (l : list A) t x : nth_error l t = Some x -> (t < length l)%nat.
Proof. intros H. apply nth_error_Some. congruence. Qed.
Lemma set_task_tasks a t x : a_tasks (set_task a t x) = upd (a_tasks a) t x. Proof. reflexivity. Qed.

Definition key (o : outcome) : nat * nat * N := (o_task o, o_seq o, o_sub o).

(* ---------------- the per-task invariant ---------------- *)
Definition good_map (next : N) (m : submap) : Prop := NoDup (map fst m) /\ forall e, In e m -> fst e < next.
Record task_ok (next : N) (subs : submap) (pub : list submap) (log : list outcome) (t : nat) (x : task) : Prop := {
  k_cursor : (t_cursor x <= length pub)%nat;
  k_fresh : t_cursor x = length pub -> t_subs x = subs;
  k_subs : good_map next (t_subs x);
  k_in : forall m s, In (m, s) (t_in x) -> good_map next s;
  k_sending : forall seq m pending, t_phase x = Sending seq m pending ->
    S seq = length (t_in x) /\ NoDup (map fst pending) /\
    (exists s, nth_error (t_in x) seq = Some (m, s) /\ incl pending s) /\
    forall e o, In e pending -> In o log -> key o <> (t, seq, fst e);
  k_log : forall o, In o log -> o_task o = t ->
    exists s senders, nth_error (t_in x) (o_seq o) = Some (o_msg o, s) /\ In (o_sub o, senders) s /\
      pick hash (t_addr x) senders = Some (o_chan o);
  k_all : forall k m s i senders, nth_error (t_in x) k = Some (m, s) -> In (i, senders) s ->
    (exists o, In o log /\ key o = (t, k, i)) \/
    (S k = length (t_in x) /\ ((t_phase x = Gone /\ t_abort x = true) \/ t_phase x = Crashed \/
       exists pending, t_phase x = Sending k m pending /\ In (i, senders) pending))
}.
Record good (a : actor) : Prop := {
  g_tasks : forall t x, nth_error (a_tasks a) t = Some x -> task_ok (a_next a) (a_subs a) (a_pub a) (a_log a) t x;
  g_log : NoDup (map key (a_log a)) /\ (forall o, In o (a_log a) -> (o_task o < length (a_tasks a))%nat) /\
    (forall l1 o1 l2 o2 l3, a_log a = l1 ++ o1 :: l2 ++ o2 :: l3 -> o_task o1 = o_task o2 -> (o_seq o1 <= o_seq o2)%nat);
  g_subs : good_map (a_next a) (a_subs a);
  g_pub : (forall m, In m (a_pub a) -> good_map (a_next a) m) /\ (a_pub a <> [] -> last (a_pub a) [] = a_subs a)
}.
Lemma good_map_mono n n' m : n <= n' -> good_map n m -> good_map n' m.
Proof. intros H [H1 H2]. split; [exact H1|]. intros e He. specialize (H2 e He). lia. Qed.
Lemma good_init : good init.
Proof.
  constructor; cbn.
  - intros [|t] x H; discriminate.
  - split; [constructor|]. split; [intros o []|]. intros [|? l1] o1 l2 o2 l3 H; discriminate.
  - split; [constructor|]. intros e [].
  - split; [intros m []|congruence].
Qed.
Lemma good_publish a next m : good a -> a_next a <= next -> good_map next m -> good (publish a next m).
Proof.
  intros G Hn Hm. constructor; cbn [publish a_tasks a_log a_subs a_pub a_next].
  - intros t x H. destruct (g_tasks a G t x H). constructor; auto.
    + rewrite app_length. lia.
    + rewrite app_length. cbn. intros E. lia.
    + now apply (good_map_mono (a_next a)).
    + intros k s Hin. apply (good_map_mono (a_next a)); [exact Hn|]. eapply k_in0; eassumption.
  - exact (g_log a G).
  - exact Hm.
  - destruct (g_pub a G) as [P1 P2]. split.
    + intros x Hx. apply in_app_or in Hx as [Hx|[<-|[]]]; [|exact Hm]. apply (good_map_mono (a_next a)); auto.
    + intros _. now rewrite last_last.
Qed.
(* replacing one task, the log and everything else being the same *)
Lemma good_set a t x y : good a -> nth_error (a_tasks a) t = Some x ->
  task_ok (a_next a) (a_subs a) (a_pub a) (a_log a) t y -> good (set_task a t y).
Proof.
  intros G Hx Hy. pose proof (nth_lt _ _ _ Hx) as Hlt. constructor; cbn [set_task a_tasks a_log a_subs a_pub a_next].
  - intros u z. change (firstn t (a_tasks a) ++ y :: skipn (S t) (a_tasks a)) with (upd (a_tasks a) t y).
    rewrite nth_upd by exact Hlt. destruct (Nat.eqb_spec u t) as [->|_]; [intros H; injection H as <-; exact Hy|].
    apply (g_tasks a G).
  - destruct (g_log a G) as (L1 & L2 & L3). repeat split; auto.
    intros o Ho. change (firstn t (a_tasks a) ++ y :: skipn (S t) (a_tasks a)) with (upd (a_tasks a) t y).
    rewrite upd_length by exact Hlt. auto.
  - exact (g_subs a G).
  - exact (g_pub a G).
Qed.
Lemma ok_phase next subs pub log t x p : task_ok next subs pub log t x ->
  ((p = Gone /\ t_abort x = true) \/ p = Crashed \/ (t_phase x = Idle /\ p = Closing) \/ (t_phase x = Closing /\ p = Gone)) ->
  task_ok next subs pub log t (with_phase x p).
Proof.
  intros K Hp. destruct K. constructor; cbn [with_phase t_cursor t_subs t_in t_phase t_addr t_abort]; auto.
  - intros seq m pending E. destruct Hp as [(-> & _)|[-> |[(_ & ->)|(_ & ->)]]]; discriminate.
  - intros k m s i senders H1 H2. destruct (k_all0 k m s i senders H1 H2) as [H|[H [(H' & Ha)|[H'|(pd & H' & H'')]]]]; [now left| | |];
      right; (split; [exact H|]); destruct Hp as [(-> & Hb)|[-> |[(E & _)|(E & _)]]]; auto; congruence.
Qed.
Lemma good_abort a t : good a -> good (abort_task a t).
Proof.
  intros G. unfold abort_task. destruct (nth_error (a_tasks a) t) as [x|] eqn:E; [|exact G].
  apply (good_set a t x); auto. pose proof (g_tasks a G t x E) as K. destruct K. constructor; auto.
  intros k m s i senders H1 H2. destruct (k_all0 k m s i senders H1 H2) as [H|[H [(H' & Ha)|H']]]; [now left| |]; right; (split; [exact H|]); [left; now split|now right].
Qed.
Lemma good_table a tb : good a -> good (with_table a tb).
Proof. intros [G1 G2 G3 G4]. constructor; assumption. Qed.
Lemma good_closed a cl d : good a -> good (Actor (a_next a) (a_subs a) (a_pub a) (a_tasks a) (a_table a) cl (a_log a) d).
Proof. intros [G1 G2 G3 G4]. constructor; assumption. Qed.
Lemma good_spawn a addr tb : good a ->
  good (Actor (a_next a) (a_subs a) (a_pub a) (a_tasks a ++ [Task addr (a_subs a) (length (a_pub a)) [] Idle false]) tb (a_closed a) (a_log a) (a_down a)).
Proof.
  intros G. destruct (g_log a G) as (L1 & L2 & L3). constructor; cbn [a_tasks a_log a_subs a_pub a_next].
  - intros t x H. destruct (Nat.lt_ge_cases t (length (a_tasks a))) as [Hl|Hl].
    + rewrite nth_error_app1 in H by exact Hl. now apply (g_tasks a G).
    + rewrite nth_error_app2 in H by exact Hl. destruct (t - length (a_tasks a))%nat as [|k] eqn:Ek; [|destruct k; discriminate].
      injection H as <-. constructor; cbn; auto.
      * exact (g_subs a G).
      * intros m s [].
      * discriminate.
      * intros o Ho Ht. specialize (L2 o Ho). lia.
      * intros [|k] ? ? ? ? H; discriminate.
  - repeat split; auto. intros o Ho. rewrite app_length. specialize (L2 o Ho). lia.
  - exact (g_subs a G).
  - exact (g_pub a G).
Qed.
Lemma nth_last {A} (l : list A) d : l <> [] -> nth (length l - 1) l d = last l d.
Proof.
  intros H. destruct (exists_last H) as (l' & x & ->). rewrite last_last, app_length. cbn [length].
  rewrite app_nth2 by lia. replace (length l' + 1 - 1 - length l')%nat with 0%nat by lia. reflexivity.
Qed.
Lemma in_split_nth {A} (l : list A) i x : nth_error l i = Some x -> l = firstn i l ++ x :: skipn (S i) l.
Proof.
  revert l. induction i as [|i IH]; intros [|y l] H; try discriminate.
  - injection H as ->. reflexivity.
  - cbn [firstn skipn app]. f_equal. apply IH. exact H.
Qed.
Lemma good_task_step a t x e : good a -> nth_error (a_tasks a) t = Some x -> good (task_step hash a t x e).
Proof.
  intros G Hx. pose proof (g_tasks a G t x Hx) as K. unfold task_step.
  destruct e as [senders|id|addr| | | |addr|?|? m|? i ok|?|?|?]; try exact G; destruct (t_phase x) as [|seq m0 pending| | |] eqn:Ep; try exact G.
  - (* Update *)
    cbv zeta. destruct (Nat.eqb_spec (length (a_pub a) - t_cursor x) 0) as [E0|E0].
    + destruct (a_down a); [|exact G]. apply (good_set a t x); auto. apply ok_phase; auto.
    + destruct (g_pub a G) as [P1 P2].
      destruct (Nat.ltb_spec pub_capacity (length (a_pub a) - t_cursor x)) as [E1|E1]; apply (good_set a t x); auto;
        destruct K; constructor; cbn [t_cursor t_subs t_in t_phase t_addr]; auto; try discriminate.
      * lia.
      * unfold pub_capacity in *. intros E. lia.
      * intros k m s i senders H1 H2. destruct (k_all0 k m s i senders H1 H2) as [H|[H [(H' & Ha)|[H'|(pd & H' & H'')]]]]; [now left|congruence..].
      * lia.
      * intros E. rewrite <- P2 by (intros En; rewrite En in E0; cbn in E0; lia).
        rewrite <- nth_last by (intros En; rewrite En in E0; cbn in E0; lia). f_equal. lia.
      * apply P1. apply nth_In. lia.
      * intros k m s i senders H1 H2. destruct (k_all0 k m s i senders H1 H2) as [H|[H [(H' & Ha)|[H'|(pd & H' & H'')]]]]; [now left|congruence..].
  - (* Decoded *)
    apply (good_set a t x); auto. destruct K. constructor; cbn [t_cursor t_subs t_in t_phase t_addr]; auto.
    + intros k s Hin. apply in_app_or in Hin as [Hin|[Hin|[]]]; [eapply k_in0; eassumption|]. injection Hin as _ <-. exact k_subs0.
    + intros seq m1 pending E. injection E as <- <- <-. rewrite app_length. cbn [length]. split; [lia|].
      split; [apply k_subs0|]. split.
      * exists (t_subs x). split; [|apply incl_refl]. rewrite nth_error_app2, Nat.sub_diag by lia. reflexivity.
      * intros e o _ Ho Hk. injection Hk as H1 H2 _. destruct (k_log0 o Ho H1) as (s & sd & H & _). apply nth_lt in H. lia.
    + intros o Ho Ht. destruct (k_log0 o Ho Ht) as (s & sd & H & H'). exists s, sd. split; [|exact H'].
      rewrite nth_error_app1; [exact H|]. now apply nth_lt in H.
    + intros k m1 s i senders H1 H2. destruct (Nat.lt_ge_cases k (length (t_in x))) as [Hl|Hl].
      * rewrite nth_error_app1 in H1 by exact Hl. destruct (k_all0 k m1 s i senders H1 H2) as [H|[H [(H' & Ha)|[H'|(pd & H' & H'')]]]]; [now left|congruence..].
      * rewrite nth_error_app2 in H1 by exact Hl. destruct (k - length (t_in x))%nat as [|j] eqn:Ek; [|destruct j; discriminate].
        injection H1 as <- <-. right. rewrite app_length. cbn [length]. split; [lia|]. right. right. exists (t_subs x).
        split; [|exact H2]. f_equal. lia.
  - (* Offer *)
    destruct (nth_error pending i) as [[s senders]|] eqn:Ei.
    + destruct (pick hash (t_addr x) senders) as [c|] eqn:Ec.
      2:{ apply (good_set a t x); auto. apply ok_phase; auto. }
      destruct (k_sending _ _ _ _ _ _ K seq m0 pending Ep) as (S1 & S2 & (sm & S3 & S4) & S5).
      pose proof (in_split_nth _ _ _ Ei) as Esp. set (rest := firstn i pending ++ skipn (S i) pending) in *.
      assert (Hperm : Permutation pending ((s, senders) :: rest)).
      { rewrite Esp at 1. symmetry. apply Permutation_middle. }
      assert (Hsub : forall e, In e rest -> In e pending).
      { intros e He. eapply Permutation_in; [symmetry; exact Hperm|]. now right. }
      assert (Hnd : NoDup (map fst ((s, senders) :: rest))).
      { eapply Permutation_NoDup; [|exact S2]. now apply Permutation_map. }
      inversion Hnd as [|? ? Hnot Hnd']; subst. cbn [fst] in Hnot.
      assert (Hnew : forall o, In o (a_log a) -> key o <> (t, seq, s)).
      { intros o Ho. apply (S5 (s, senders) o); [|exact Ho]. eapply nth_error_In; eassumption. }
      pose proof (nth_lt _ _ _ Hx) as Hlt. destruct (g_log a G) as (L1 & L2 & L3).
      constructor; cbn [set_task a_tasks a_log a_subs a_pub a_next].
      * intros u z. change (firstn t (a_tasks a) ++ with_phase x (Sending seq m0 rest) :: skipn (S t) (a_tasks a))
          with (upd (a_tasks a) t (with_phase x (Sending seq m0 rest))).
        rewrite nth_upd by exact Hlt. destruct (Nat.eqb_spec u t) as [->|Hne].
        -- intros H. injection H as <-. destruct K. constructor; cbn [with_phase t_cursor t_subs t_in t_phase t_addr]; auto.
           ++ intros seq' m' pending' E. injection E as <- <- <-. split; [exact S1|]. split; [exact Hnd'|]. split.
              ** exists sm. split; [exact S3|]. intros e He. auto.
              ** intros e o He Ho. apply in_app_or in Ho as [Ho|[<-|[]]]; [now apply S5; auto|].
                 cbn. intros E. injection E as E. apply Hnot. rewrite E. now apply in_map.
           ++ intros o Ho Ht. apply in_app_or in Ho as [Ho|[<-|[]]]; [auto|]. cbn [o_seq o_msg o_sub o_chan].
              exists sm, senders. split; [exact S3|]. split; [|exact Ec]. apply S4. eapply nth_error_In; eassumption.
           ++ intros k m1 s1 j sd H1 H2. destruct (k_all0 k m1 s1 j sd H1 H2) as [(o & Ho & Hk)|[H [(H' & Ha)|[H'|(pd & H' & H'')]]]].
              ** left. exists o. split; [apply in_or_app; now left|exact Hk].
              ** congruence.
              ** congruence.
              ** rewrite Ep in H'. injection H' as <- <- <-. eapply Permutation_in in H''; [|exact Hperm].
                 destruct H'' as [E|H''].
                 --- injection E as <- <-. left. exists (Outcome t seq m0 s c ok). split; [apply in_or_app; right; now left|reflexivity].
                 --- right. split; [exact H|]. right. right. exists rest. split; [reflexivity|exact H''].
        -- intros Hz. pose proof (g_tasks a G u z Hz) as Kz. destruct Kz. constructor; auto.
           ++ intros seq' m' pending' E. destruct (k_sending0 seq' m' pending' E) as (Q1 & Q2 & Q3 & Q4). repeat split; auto.
              intros e o He Ho. apply in_app_or in Ho as [Ho|[<-|[]]]; [auto|]. cbn. intros E'. injection E' as E' _ _. congruence.
           ++ intros o Ho Ht. apply in_app_or in Ho as [Ho|[<-|[]]]; [auto|]. cbn in Ht. congruence.
           ++ intros k m1 s1 j sd H1 H2. destruct (k_all0 k m1 s1 j sd H1 H2) as [(o & Ho & Hk)|H]; [|now right].
              left. exists o. split; [apply in_or_app; now left|exact Hk].
      * repeat split.
        -- rewrite map_app. cbn [map]. apply (Permutation_NoDup (l := key (Outcome t seq m0 s c ok) :: map key (a_log a))).
           ++ apply Permutation_cons_append.
           ++ constructor; [|exact L1]. intros H. apply in_map_iff in H as (o & E & Ho). now apply (Hnew o Ho).
        -- intros o Ho. change (firstn t (a_tasks a) ++ with_phase x (Sending seq m0 rest) :: skipn (S t) (a_tasks a))
             with (upd (a_tasks a) t (with_phase x (Sending seq m0 rest))).
           rewrite upd_length by exact Hlt. apply in_app_or in Ho as [Ho|[<-|[]]]; [auto|exact Hlt].
        -- intros l1 o1 l2 o2 l3 E Et. destruct l3 as [|o3 l3] using rev_ind.
           ++ replace (l1 ++ o1 :: l2 ++ [o2]) with ((l1 ++ o1 :: l2) ++ [o2]) in E by now rewrite <- app_assoc.
              apply app_inj_tail in E as [E <-]. cbn [o_seq o_task] in *.
              assert (Ho : In o1 (a_log a)) by (rewrite E; apply in_or_app; right; now left).
              destruct (k_log _ _ _ _ _ _ K o1 Ho Et) as (s1 & sd & H & _). apply nth_lt in H. lia.
           ++ clear IHl3. replace (l1 ++ o1 :: l2 ++ o2 :: l3 ++ [o3]) with ((l1 ++ o1 :: l2 ++ o2 :: l3) ++ [o3]) in E.
              ** apply app_inj_tail in E as [E _]. eapply L3; eassumption.
              ** rewrite <- app_assoc. cbn [app]. rewrite <- app_assoc. reflexivity.
      * exact (g_subs a G).
      * exact (g_pub a G).
    + destruct pending as [|p pending]; [|exact G]. apply (good_set a t x); auto. destruct K.
      constructor; cbn [with_phase t_cursor t_subs t_in t_phase t_addr]; auto; try discriminate.
      intros k m1 s1 j sd H1 H2. destruct (k_all0 k m1 s1 j sd H1 H2) as [H|[H [(H' & Ha)|[H'|(pd & H' & H'')]]]]; [now left|congruence|congruence|].
      rewrite Ep in H'. injection H' as _ _ <-. destruct H''.
  - destruct (t_abort x) eqn:Eb; [|exact G]. apply (good_set a t x); auto. apply ok_phase; auto.
  - destruct (t_abort x) eqn:Eb; [|exact G]. apply (good_set a t x); auto. apply ok_phase; auto.
  - apply (good_set a t x); auto. apply ok_phase; auto.
  - assert (G' : good (set_task a t (with_phase x Gone))) by (apply (good_set a t x); auto; apply ok_phase; auto).
    cbv zeta. destruct (_ || _); [exact G'|]. now apply good_closed.
Qed.
Lemma good_aborts l a : good a -> good (fold_left abort_task l a).
Proof. revert a. induction l as [|t l IH]; intros a G; [exact G|]. cbn. apply IH. now apply good_abort. Qed.
Lemma good_step a e : good a -> good (fst (step hash a e)).
Proof.
  intros G. unfold step. destruct (event_task e) as [t|] eqn:Et.
  - cbn [fst]. destruct (nth_error (a_tasks a) t) eqn:E; [|exact G]. now apply good_task_step.
  - destruct (a_down a) eqn:Ed; [exact G|]. destruct e as [senders|id|addr| | | |addr|u|u m|u i ok|u|u|u]; try discriminate Et; cbn [fst].
    + apply good_publish; [exact G|lia|]. destruct (g_subs a G) as [H1 H2]. split.
      * rewrite map_app. cbn [map]. apply (Permutation_NoDup (l := a_next a :: map fst (a_subs a))); [apply Permutation_cons_append|].
        constructor; [|exact H1]. intros H. apply in_map_iff in H as (e & E & He). specialize (H2 e He). lia.
      * intros e He. apply in_app_or in He as [He|[<-|[]]]; [specialize (H2 e He); lia|cbn; lia].
    + apply good_publish; [exact G|lia|]. destruct (g_subs a G) as [H1 H2]. unfold sub_del. split.
      * clear H2. induction (a_subs a) as [|e m IH]; [constructor|]. inversion H1 as [|? ? Hn Hd]; subst. cbn.
        destruct (negb (fst e =? id)); [|auto]. cbn. constructor; [|auto]. intros H. apply Hn. apply in_map_iff in H as (f & E & Hf).
        apply filter_In in Hf as [Hf _]. rewrite <- E. now apply in_map.
      * intros e He. apply filter_In in He as [He _]. auto.
    + destruct (table_get (a_table a) addr); [|exact G]. cbn [fst]. now apply good_abort, good_table.
    + exact G.
    + cbv zeta. cbn [fst].
      pose proof (good_aborts (map snd (a_table a)) a G) as G'.
      apply (good_closed (with_table (fold_left abort_task (map snd (a_table a)) a) []) (a_closed (fold_left abort_task (map snd (a_table a)) a)) true).
      now apply good_table.
    + destruct (a_closed a) as [|x r]; [exact G|]. cbn [fst].
      apply (good_closed (with_table a (table_del (a_table a) x)) r false). now apply good_table.
    + cbv zeta. cbn [fst]. apply good_spawn. destruct (table_get (a_table a) addr); [now apply good_abort|exact G].
Qed.
Lemma good_state es : good (state es).
Proof. apply (state_ind (fun _ a => good a)); [exact good_init|]. intros. now apply good_step. Qed.

(* ---------------- one step, seen from outside the tasks ---------------- *)
Lemma task_step_frame a t x e : a_next (task_step hash a t x e) = a_next a /\ a_subs (task_step hash a t x e) = a_subs a /\
  a_pub (task_step hash a t x e) = a_pub a /\ a_table (task_step hash a t x e) = a_table a /\ a_down (task_step hash a t x e) = a_down a.
Proof.
  unfold task_step. cbv zeta.
  destruct e as [senders|id|addr| | | |addr|?|? m|? i ok|?|?|?]; auto; destruct (t_phase x) as [|seq m0 pending| | |]; auto.
  - destruct (Nat.eqb _ 0); [destruct (a_down a) eqn:Ed; auto|destruct (Nat.ltb _ _); auto].
  - destruct (nth_error pending i) as [[s senders]|]; [destruct (pick hash (t_addr x) senders); auto|destruct pending; auto].
  - destruct (t_abort x); auto.
  - destruct (t_abort x); auto.
  - destruct (_ || _); auto.
Qed.
Lemma abort_frame a t : a_next (abort_task a t) = a_next a /\ a_subs (abort_task a t) = a_subs a /\ a_pub (abort_task a t) = a_pub a /\
  a_table (abort_task a t) = a_table a /\ a_down (abort_task a t) = a_down a /\ a_closed (abort_task a t) = a_closed a /\
  a_log (abort_task a t) = a_log a /\ length (a_tasks (abort_task a t)) = length (a_tasks a).
Proof.
  unfold abort_task. destruct (nth_error (a_tasks a) t) eqn:E; cbn [set_task a_next a_subs a_pub a_table a_down a_closed a_log a_tasks]; repeat split; auto.
  apply nth_lt in E. now apply (upd_length (a_tasks a) t (abort t0)).
Qed.
Lemma aborts_frame l a : a_next (fold_left abort_task l a) = a_next a /\ a_subs (fold_left abort_task l a) = a_subs a /\
  a_pub (fold_left abort_task l a) = a_pub a /\ a_closed (fold_left abort_task l a) = a_closed a /\
  a_log (fold_left abort_task l a) = a_log a /\ length (a_tasks (fold_left abort_task l a)) = length (a_tasks a).
Proof.
  revert a. induction l as [|t l IH]; intros a; [repeat split|]. cbn [fold_left].
  destruct (IH (abort_task a t)) as (E1 & E2 & E3 & E4 & E5 & E6). destruct (abort_frame a t) as (F1 & F2 & F3 & _ & _ & F4 & F5 & F6).
  repeat split; congruence.
Qed.
Lemma step_event_frame a e t : event_task e = Some t ->
  a_next (fst (step hash a e)) = a_next a /\ a_subs (fst (step hash a e)) = a_subs a /\
  a_pub (fst (step hash a e)) = a_pub a /\ a_table (fst (step hash a e)) = a_table a /\ a_down (fst (step hash a e)) = a_down a.
Proof.
  intros Et. unfold step. rewrite Et. cbn [fst]. destruct (nth_error (a_tasks a) t); [|auto 6]. apply task_step_frame.
Qed.

(* ---------------- subscriptions ---------------- *)
Lemma before_stop_snoc es e : before_stop (es ++ [e]) =
  if existsb (fun e => match e with Shutdown => true | _ => false end) es then before_stop es
  else match e with Shutdown => before_stop es | _ => before_stop es ++ [e] end.
Proof.
  induction es as [|f es IH]; [destruct e; reflexivity|]. cbn [app before_stop existsb].
  destruct f; cbn [orb]; try reflexivity; rewrite IH;
    destruct (existsb _ es); try reflexivity; destruct e; reflexivity.
Qed.
Lemma stopped_b es : existsb (fun e => match e with Shutdown => true | _ => false end) es = true <-> stopped es.
Proof.
  unfold stopped. rewrite existsb_exists. split; [intros (e & H & E); destruct e; try discriminate; exact H|].
  intros H. exists Shutdown. split; [exact H|reflexivity].
Qed.
Lemma down_stopped es : a_down (state es) = existsb (fun e => match e with Shutdown => true | _ => false end) es.
Proof.
  apply (state_ind (fun es a => a_down a = existsb (fun e => match e with Shutdown => true | _ => false end) es)); [reflexivity|].
  clear es. intros es e IH. rewrite existsb_app. cbn [existsb]. rewrite orb_false_r, <- IH.
  destruct (event_task e) as [t|] eqn:Et.
  - destruct (step_event_frame (state es) e t Et) as (_ & _ & _ & _ & ->). destruct e; try discriminate Et; now rewrite orb_false_r.
  - unfold step. rewrite Et. destruct (a_down (state es)) eqn:Ed; [cbn; now rewrite Ed|].
    destruct e as [senders|id|addr| | | |addr|u|u m|u i ok|u|u|u]; try discriminate Et; cbn [fst orb publish a_down]; auto.
    + destruct (table_get _ addr); cbn [fst]; [|exact Ed]. match goal with |- a_down (abort_task ?b ?t) = _ => destruct (abort_frame b t) as (_ & _ & _ & _ & -> & _) end. exact Ed.
    + destruct (a_closed (state es)); cbn [fst a_down]; auto.
    + destruct (table_get _ addr) as [t|]; cbn [a_down]; [|exact Ed]. destruct (abort_frame (state es) t) as (_ & _ & _ & _ & -> & _). exact Ed.
Qed.
Lemma subscriptions_app es fs : subscriptions (es ++ fs) = subscriptions es ++ subscriptions fs.
Proof. induction es as [|[] es IH]; cbn; auto. now rewrite IH. Qed.

(* entries of a map were all made by a subscription *)
Definition from_history (es : list event) (m : submap) : Prop :=
  forall id s, In (id, s) m -> nth_error (subscriptions (before_stop es)) (N.to_nat id) = Some s.
Record subs_inv (es : list event) (a : actor) : Prop := {
  u_next : a_next a = N.of_nat (length (subscriptions (before_stop es)));
  u_subs : forall id s, In (id, s) (a_subs a) <-> subscribed es id s;
  u_maps : from_history es (a_subs a) /\ (forall m, In m (a_pub a) -> from_history es m) /\
    forall x, In x (a_tasks a) -> from_history es (t_subs x) /\ forall k m, In (k, m) (t_in x) -> from_history es m
}.
Lemma from_history_app es fs m : (exists ext, before_stop fs = before_stop es ++ ext) -> from_history es m -> from_history fs m.
Proof.
  intros (ext & E) H id s Hin. rewrite E, subscriptions_app. specialize (H id s Hin). rewrite nth_error_app1; [exact H|]. now apply nth_lt in H.
Qed.
Lemma before_ext es e : exists ext, before_stop (es ++ [e]) = before_stop es ++ ext.
Proof.
  rewrite before_stop_snoc. destruct (existsb _ es); [exists []; now rewrite app_nil_r|].
  destruct e; try (eexists; reflexivity); exists []; now rewrite app_nil_r.
Qed.
Lemma subscribed_same es e : (match e with Subscribe _ | Unsubscribe _ => stopped es | _ => True end) ->
  (forall id s, subscribed (es ++ [e]) id s <-> subscribed es id s) /\
  length (subscriptions (before_stop (es ++ [e]))) = length (subscriptions (before_stop es)).
Proof.
  intros H. unfold subscribed. rewrite before_stop_snoc.
  destruct (existsb _ es) eqn:Es; [split; [intros; reflexivity|reflexivity]|].
  assert (Hns : ~ stopped es) by (rewrite <- stopped_b, Es; discriminate).
  assert (Hsnoc : (forall s, e <> Subscribe s) -> (forall i, e <> Unsubscribe i) ->
    (forall id s, (exists pre post, before_stop es ++ [e] = pre ++ Subscribe s :: post /\ id = N.of_nat (length (subscriptions pre)) /\ ~ In (Unsubscribe id) post) <->
       (exists pre post, before_stop es = pre ++ Subscribe s :: post /\ id = N.of_nat (length (subscriptions pre)) /\ ~ In (Unsubscribe id) post)) /\
    length (subscriptions (before_stop es ++ [e])) = length (subscriptions (before_stop es))).
  { intros N1 N2. split.
    - intros id s. split.
      + intros (pre & post & E & Ei & Hu). destruct post as [|f post] using rev_ind.
        * apply app_inj_tail in E as [_ E]. now destruct (N1 s).
        * clear IHpost. replace (pre ++ Subscribe s :: post ++ [f]) with ((pre ++ Subscribe s :: post) ++ [f]) in E by now rewrite <- app_assoc.
          apply app_inj_tail in E as [E _]. exists pre, post. repeat split; auto. intros Hi. apply Hu. apply in_or_app. now left.
      + intros (pre & post & E & Ei & Hu). exists pre, (post ++ [e]). rewrite E, <- app_assoc. repeat split; auto.
        intros Hi. apply in_app_or in Hi as [Hi|[Hi|[]]]; [auto|]. now destruct (N2 id).
    - rewrite subscriptions_app, app_length. destruct e; cbn; try lia. now destruct (N1 senders). }
  destruct e; try contradiction; try (apply Hsnoc; intros; discriminate). split; intros; reflexivity.
Qed.
Lemma in_sub_del m i id s : In (id, s) (sub_del m i) <-> In (id, s) m /\ id <> i.
Proof.
  unfold sub_del. rewrite filter_In. cbn [fst]. rewrite negb_true_iff, N.eqb_neq. reflexivity.
Qed.
Lemma subscribed_lt es id s : subscribed es id s -> id < N.of_nat (length (subscriptions (before_stop es))) /\
  nth_error (subscriptions (before_stop es)) (N.to_nat id) = Some s.
Proof.
  intros (pre & post & -> & -> & _). rewrite subscriptions_app, Nat2N.id. cbn [subscriptions]. split.
  - rewrite app_length. cbn [length]. lia.
  - rewrite nth_error_app2, Nat.sub_diag by lia. reflexivity.
Qed.
Lemma subscribed_subscribe es senders : ~ stopped es -> forall id s,
  subscribed (es ++ [Subscribe senders]) id s <-> subscribed es id s \/ (id = N.of_nat (length (subscriptions (before_stop es))) /\ s = senders).
Proof.
  intros Hs id s. unfold subscribed. rewrite before_stop_snoc.
  destruct (existsb _ es) eqn:Es; [now rewrite stopped_b in Es|]. split.
  - intros (pre & post & E & Ei & Hu). destruct post as [|f post] using rev_ind.
    + apply app_inj_tail in E as [-> E]. injection E as <-. right. now split.
    + clear IHpost. replace (pre ++ Subscribe s :: post ++ [f]) with ((pre ++ Subscribe s :: post) ++ [f]) in E by now rewrite <- app_assoc.
      apply app_inj_tail in E as [E _]. left. exists pre, post. repeat split; auto. intros Hi. apply Hu. apply in_or_app. now left.
  - intros [(pre & post & E & Ei & Hu)|[-> ->]].
    + exists pre, (post ++ [Subscribe senders]). rewrite E, <- app_assoc. repeat split; auto.
      intros Hi. apply in_app_or in Hi as [Hi|[Hi|[]]]; [auto|discriminate].
    + exists (before_stop es), []. repeat split; auto.
Qed.
Lemma subscribed_unsubscribe es i : ~ stopped es -> forall id s,
  subscribed (es ++ [Unsubscribe i]) id s <-> subscribed es id s /\ id <> i.
Proof.
  intros Hs id s. unfold subscribed. rewrite before_stop_snoc.
  destruct (existsb _ es) eqn:Es; [now rewrite stopped_b in Es|]. split.
  - intros (pre & post & E & Ei & Hu). destruct post as [|f post] using rev_ind.
    + apply app_inj_tail in E as [_ E]. discriminate.
    + clear IHpost. replace (pre ++ Subscribe s :: post ++ [f]) with ((pre ++ Subscribe s :: post) ++ [f]) in E by now rewrite <- app_assoc.
      apply app_inj_tail in E as [E <-]. split.
      * exists pre, post. repeat split; auto. intros Hi. apply Hu. apply in_or_app. now left.
      * intros ->. apply Hu. apply in_or_app. right. now left.
  - intros [(pre & post & E & Ei & Hu) Hne]. exists pre, (post ++ [Unsubscribe i]). rewrite E, <- app_assoc. repeat split; auto.
    intros Hi. apply in_app_or in Hi as [Hi|[Hi|[]]]; [auto|]. congruence.
Qed.
(* the maps that tasks hold after a step come from the tasks and the publications before *)
Definition maps_ok (P : submap -> Prop) (l : list task) : Prop :=
  forall x, In x l -> P (t_subs x) /\ forall k m, In (k, m) (t_in x) -> P m.
Lemma maps_upd P l t x : maps_ok P l -> (P (t_subs x) /\ forall k m, In (k, m) (t_in x) -> P m) -> maps_ok P (upd l t x).
Proof. intros H Hx y Hy. apply in_upd in Hy as [-> |Hy]; auto. Qed.
Lemma maps_abort P a t : maps_ok P (a_tasks a) -> maps_ok P (a_tasks (abort_task a t)).
Proof.
  intros H. unfold abort_task. destruct (nth_error (a_tasks a) t) as [x|] eqn:E; [|exact H].
  apply maps_upd; [exact H|]. exact (H x (nth_error_In _ _ E)).
Qed.
Lemma maps_aborts P l a : maps_ok P (a_tasks a) -> maps_ok P (a_tasks (fold_left abort_task l a)).
Proof. revert a. induction l as [|t l IH]; intros a H; [exact H|]. cbn. apply IH. now apply maps_abort. Qed.
Lemma maps_task_step (P : submap -> Prop) a t x e : P [] -> nth_error (a_tasks a) t = Some x ->
  maps_ok P (a_tasks a) -> (forall m, In m (a_pub a) -> P m) -> maps_ok P (a_tasks (task_step hash a t x e)).
Proof.
  intros P0 Hx H Hp. pose proof (H x (nth_error_In _ _ Hx)) as [X1 X2]. unfold task_step. cbv zeta.
  assert (Hph : forall p, maps_ok P (upd (a_tasks a) t (with_phase x p))) by (intros p; apply maps_upd; [exact H|now split]).
  destruct e as [senders|id|addr| | | |addr|?|? m|? i ok|?|?|?]; auto; destruct (t_phase x) as [|seq m0 pending| | |]; auto.
  - destruct (Nat.eqb _ 0); [destruct (a_down a); auto; apply Hph|]. destruct (Nat.ltb _ _).
    + apply maps_upd; [exact H|now split].
    + apply maps_upd; [exact H|]. cbn [t_subs t_in]. split; [|exact X2].
      destruct (nth_in_or_default (t_cursor x) (a_pub a) []) as [Hi| ->]; auto.
  - apply maps_upd; [exact H|]. cbn [t_subs t_in]. split; [exact X1|]. intros k m1 Hin. apply in_app_or in Hin as [Hin|[Hin|[]]]; [eauto|].
    injection Hin as _ <-. exact X1.
  - destruct (nth_error pending i) as [[s senders]|].
    + destruct (pick hash (t_addr x) senders); apply Hph.
    + destruct pending; [apply Hph|auto].
  - destruct (t_abort x); [apply Hph|exact H].
  - destruct (t_abort x); [apply Hph|exact H].
  - apply Hph.
  - destruct (_ || _); apply Hph.
Qed.
Lemma subs_state es : subs_inv es (state es).
Proof.
  apply (state_ind subs_inv).
  { constructor; cbn; try reflexivity.
    - intros id s. split; [intros []|]. intros (pre & post & E & _). destruct pre; discriminate.
    - split; [intros id s []|]. split; [intros m []|intros x []]. }
  clear es. intros es e [I1 I2 (I3 & I4 & I5)].
  assert (Hkeep : forall m, from_history es m -> from_history (es ++ [e]) m) by (intros m; apply from_history_app, before_ext).
  assert (Hmaps : maps_ok (from_history (es ++ [e])) (a_tasks (state es))).
  { intros x Hx. destruct (I5 x Hx) as [A1 A2]. split; [auto|]. intros k m Hin. apply Hkeep. eapply A2; eassumption. }
  assert (Hnil : from_history (es ++ [e]) []) by (intros id s []).
  destruct (event_task e) as [t|] eqn:Et.
  - destruct (step_event_frame (state es) e t Et) as (F1 & F2 & F3 & _).
    assert (Hnot : match e with Subscribe _ | Unsubscribe _ => stopped es | _ => True end) by (destruct e; try discriminate Et; exact I).
    destruct (subscribed_same es e Hnot) as [S1 S2]. constructor; rewrite ?F1, ?F2, ?F3.
    + rewrite S2. exact I1.
    + intros id s. rewrite S1. apply I2.
    + split; [auto|]. split; [auto|]. unfold step. rewrite Et. cbn [fst].
      destruct (nth_error (a_tasks (state es)) t) as [x|] eqn:Ex; [|exact Hmaps]. apply maps_task_step; auto.
  - pose proof (down_stopped es) as Hd. pose proof (stopped_b es) as Hst. rewrite <- Hd in Hst. unfold step. rewrite Et.
    destruct (a_down (state es)) eqn:Ed.
    { assert (Hnot : match e with Subscribe _ | Unsubscribe _ => stopped es | _ => True end) by (destruct e; try exact I; now apply Hst).
      destruct (subscribed_same es e Hnot) as [S1 S2]. cbn [fst]. constructor.
      - rewrite S2. exact I1.
      - intros id s. rewrite S1. apply I2.
      - split; [auto|]. split; [auto|]. exact Hmaps. }
    assert (Hns : ~ stopped es) by (intros Hx; apply Hst in Hx; discriminate).
    destruct e as [senders|id|addr| | | |addr|u|u m|u i ok|u|u|u]; try discriminate Et.
    + (* Subscribe *)
      cbn [fst]. unfold publish. assert (Hm : from_history (es ++ [Subscribe senders]) (a_subs (state es) ++ [(a_next (state es), senders)])).
      { intros id s Hin. apply in_app_or in Hin as [Hin|[Hin|[]]]; [apply (Hkeep _ I3); exact Hin|]. injection Hin as <- <-.
        rewrite before_stop_snoc. destruct (existsb _ es); [discriminate Hd|].
        rewrite subscriptions_app, I1, Nat2N.id, nth_error_app2, Nat.sub_diag by lia. reflexivity. }
      constructor; cbn [a_next a_subs a_pub a_tasks].
      * rewrite before_stop_snoc. destruct (existsb _ es); [discriminate Hd|].
        rewrite subscriptions_app, app_length, I1. cbn [subscriptions length]. lia.
      * intros id s. rewrite (subscribed_subscribe es senders Hns id s), <- I2, <- I1, in_app_iff. cbn [In]. split; [intros [H|[H|[]]]|intros [H|[-> ->]]]; auto.
        injection H as <- <-. auto.
      * split; [exact Hm|]. split; [|exact Hmaps]. intros m Hin. apply in_app_or in Hin as [Hin|[<-|[]]]; auto.
    + (* Unsubscribe *)
      cbn [fst]. unfold publish. assert (Hm : from_history (es ++ [Unsubscribe id]) (sub_del (a_subs (state es)) id)).
      { intros i s Hin. apply in_sub_del in Hin as [Hin _]. now apply (Hkeep _ I3). }
      constructor; cbn [a_next a_subs a_pub a_tasks].
      * rewrite before_stop_snoc. destruct (existsb _ es); [discriminate Hd|].
        rewrite subscriptions_app, app_length, I1. cbn [subscriptions length]. lia.
      * intros i s. rewrite (subscribed_unsubscribe es id Hns i s), <- I2. apply in_sub_del.
      * split; [exact Hm|]. split; [|exact Hmaps]. intros m Hin. apply in_app_or in Hin as [Hin|[<-|[]]]; auto.
    + (* Disconnect *)
      destruct (subscribed_same es (Disconnect addr) I) as [S1 S2]. destruct (table_get (a_table (state es)) addr) as [t|]; cbn [fst].
      * match goal with |- subs_inv _ (abort_task ?b ?t) => destruct (abort_frame b t) as (F1 & F2 & F3 & _); constructor; rewrite ?F1, ?F2, ?F3 end.
        -- rewrite S2. exact I1.
        -- intros i s. rewrite S1. apply I2.
        -- split; [apply (Hkeep _ I3)|]. split; [auto|]. apply maps_abort. exact Hmaps.
      * constructor; [rewrite S2; exact I1|intros i s; rewrite S1; apply I2|]. split; [auto|]. split; [auto|exact Hmaps].
    + destruct (subscribed_same es ConnectedPeers I) as [S1 S2]. cbn [fst].
      constructor; [rewrite S2; exact I1|intros i s; rewrite S1; apply I2|]. split; [auto|]. split; [auto|exact Hmaps].
    + (* Shutdown *)
      destruct (subscribed_same es Shutdown I) as [S1 S2]. cbv zeta. cbn [fst].
      destruct (aborts_frame (map snd (a_table (state es))) (state es)) as (F1 & F2 & F3 & _).
      constructor; cbn [a_next a_subs a_pub a_tasks]; rewrite ?F1, ?F2, ?F3.
      * rewrite S2. exact I1.
      * intros i s. rewrite S1. apply I2.
      * split; [apply (Hkeep _ I3)|]. split; [auto|]. apply maps_aborts. exact Hmaps.
    + (* TakeClosed *)
      destruct (subscribed_same es TakeClosed I) as [S1 S2]. destruct (a_closed (state es)); cbn [fst];
      (constructor; [rewrite S2; exact I1|intros i s; rewrite S1; apply I2|]; split; [apply (Hkeep _ I3)|]; split; [auto|exact Hmaps]).
    + (* Accept *)
      destruct (subscribed_same es (Accept addr) I) as [S1 S2]. cbv zeta. cbn [fst].
      assert (Hb : exists b, b = match table_get (a_table (state es)) addr with Some t => abort_task (state es) t | None => state es end /\
        a_next b = a_next (state es) /\ a_subs b = a_subs (state es) /\ a_pub b = a_pub (state es) /\ maps_ok (from_history (es ++ [Accept addr])) (a_tasks b)).
      { destruct (table_get (a_table (state es)) addr) as [t|]; eexists; (split; [reflexivity|]); [|auto].
        destruct (abort_frame (state es) t) as (F1 & F2 & F3 & _). rewrite F1, F2, F3. do 3 (split; [reflexivity|]). apply maps_abort. exact Hmaps. }
      destruct Hb as (b & <- & B1 & B2 & B3 & B4). constructor; cbn [a_next a_subs a_pub a_tasks]; rewrite ?B1, ?B2, ?B3.
      * rewrite S2. exact I1.
      * intros i s. rewrite S1. apply I2.
      * split; [auto|]. split; [auto|]. intros x Hx. apply in_app_or in Hx as [Hx|[<-|[]]]; [auto|]. cbn [t_subs t_in]. split; [auto|intros k m []].
Qed.
Lemma sub_get_some m i : NoDup (map fst m) -> forall s, sub_get m i = Some s <-> In (i, s) m.
Proof.
  intros Hnd s. unfold sub_get. induction m as [|[j r] m IH]; [split; [discriminate|intros []]|]. cbn [find fst].
  inversion Hnd as [|? ? Hn Hd]; subst. destruct (N.eqb_spec j i) as [-> |Hne]; cbn [option_map snd In].
  - split; [intros H; injection H as <-; now left|]. intros [H|H]; [now injection H as <-|]. destruct Hn. apply (in_map fst) in H. exact H.
  - rewrite (IH Hd). split; [now right|]. intros [H|H]; [congruence|exact H].
Qed.
Lemma sub_get_none m i : sub_get m i = None <-> forall s, ~ In (i, s) m.
Proof.
  unfold sub_get. induction m as [|[j r] m IH]; [split; [intros _ s []|reflexivity]|]. cbn [find fst].
  destruct (N.eqb_spec j i) as [-> |Hne]; cbn [option_map snd In].
  - split; [discriminate|]. intros H. destruct (H r). now left.
  - rewrite IH. split; intros H s; [intros [E|Hin]; [congruence|now apply (H s)]|]. intros Hin. apply (H s). now right.
Qed.
End Actor.
