From Verif Require Import Base BaseLemmas AfModel MapLib FlModel FlSpec FlSafeProofs FlDecodeProofs.

Definition bad {E A} (x : res E A) : Prop := match x with Ok _ => False | _ => True end.
Lemma sbind_cases {T A B} (p : sparser T A) (f : A -> sparser T B) t r t' r' x :
  sbind p f t r = (t', r', x) ->
  (exists t1 r1 a, p t r = (t1, r1, Ok a) /\ f a t1 r1 = (t', r', x)) \/
  (bad x /\ exists y, bad y /\ p t r = (t', r', y)).
Proof.
  unfold sbind. destruct (p t r) as [[t1 r1] [a|e| |]] eqn:E; intros H.
  - left. eauto 6.
  - right. inversion H; subst. split; [exact I|]. exists (Err e). split; [exact I|reflexivity].
  - right. inversion H; subst. split; [exact I|]. exists Panic. split; [exact I|reflexivity].
  - right. inversion H; subst. split; [exact I|]. exists Diverge. split; [exact I|reflexivity].
Qed.
Lemma slift_inv {T A} (p : parser ferr A) (t : T) r t' r' x :
  slift p t r = (t', r', x) -> t' = t /\ p r = (r', x).
Proof. unfold slift. destruct (p r) as [r1 y]. intros H; inversion H; auto. Qed.
Lemma plift_ok {T A} (p : parser perr A) (t : T) r t' r' a :
  plift p t r = (t', r', Ok a) -> t' = t /\ p r = (r', Ok a).
Proof. intros H. apply slift_inv in H as [-> H]. apply map_err_ok in H. auto. Qed.

(* ---- after ---- *)
Section After.
Context {L : Type}.
Implicit Types (v : N -> option L) (l : list (N * L)).
Lemma last_of_app i l1 l2 : last_of i (l1 ++ l2) = match last_of i l2 with Some x => Some x | None => last_of i l1 end.
Proof.
  induction l1 as [|[j x] l1 IH]; cbn [app last_of]; [now destruct (last_of i l2)|].
  rewrite IH. destruct (last_of i l2); reflexivity.
Qed.
Lemma after_app v l1 l2 i : after v (l1 ++ l2) i = after (after v l1) l2 i.
Proof. unfold after. rewrite last_of_app. destruct (last_of i l2); reflexivity. Qed.
Lemma after_nil v i : after v [] i = v i. Proof. reflexivity. Qed.
Lemma after_one v j x i : after v [(j, x)] i = if i =? j then Some x else v i.
Proof. unfold after; cbn. destruct (i =? j); reflexivity. Qed.
Lemma after_ext v v' l i : (forall j, v j = v' j) -> after v l i = after v' l i.
Proof. intros H. unfold after. rewrite H. reflexivity. Qed.
Lemma in_last_of i x l : last_of i l = Some x -> In (i, x) l.
Proof.
  induction l as [|[j y] l IH]; cbn [last_of]; [intros H; discriminate H|].
  destruct (last_of i l) eqn:E; intros H.
  - right. inversion H; subst. now apply IH.
  - destruct (N.eqb_spec i j); inversion H; subst. now left.
Qed.
End After.

(* ---- what a parser may leave in the map ---- *)
Section Teach.
Context {T L : Type} (V : T -> N -> option L).
(* R buf e: the entry e can come from the octets buf *)
Context (R : list N -> N * L -> Prop).
Hypothesis R_mono : forall pre b post e, R b e -> R (pre ++ b ++ post) e.

Definition teach {A} (p : sparser T A) (f : A -> list (N * L)) (P : (N -> option L) -> A -> Prop) : Prop :=
  forall m r m' r' x, bytes_ok (rbuf r) = true -> p m r = (m', r', x) ->
  match x with
  | Ok a => (forall i, V m' i = after (V m) (f a) i) /\ Forall (R (rbuf r)) (f a) /\ P (V m) a
  | _ => exists l, (forall i, V m' i = after (V m) l i) /\ Forall (R (rbuf r)) l
  end.
Definition each {A} (f : A -> list (N * L)) (P : (N -> option L) -> A -> Prop) (v : N -> option L) (l : list A) : Prop :=
  forall l1 a l2, l = l1 ++ a :: l2 -> P (after v (flat_map f l1)) a.
Definition extp {A} (P : (N -> option L) -> A -> Prop) : Prop :=
  forall v v' a, (forall i, v i = v' i) -> P v a -> P v' a.

Lemma R_suffix r r' : adv r r' -> forall l, Forall (R (rbuf r')) l -> Forall (R (rbuf r)) l.
Proof.
  intros [pre [H _]] l Hl. rewrite H. eapply Forall_impl; [|exact Hl]. intros e He.
  rewrite <- (app_nil_r (rbuf r')). now apply R_mono.
Qed.
Lemma adv_bytes r r' : adv r r' -> bytes_ok (rbuf r) = true -> bytes_ok (rbuf r') = true.
Proof. intros [pre [H _]] Hb. rewrite H, bytes_ok_app in Hb. apply andb_true_iff in Hb. tauto. Qed.

Lemma teach_while {A} cond (p : sparser T A) f P : ssafe p -> extp P -> teach p f P ->
  forall n, teach (swhile n cond p) (flat_map f) (each f P).
Proof.
  intros Hs He Hp. induction n as [|n IH]; intros m r m' r' x Hb; cbn [swhile].
  - destruct (cond r); intros H; inversion H; subst; cbn.
    + exists []. split; [reflexivity|constructor].
    + split; [reflexivity|]. split; [constructor|]. intros l1 a l2 Hl. destruct l1; discriminate Hl.
  - destruct (cond r).
    2: { intros H; inversion H; subst; cbn. split; [reflexivity|]. split; [constructor|].
         intros l1 a l2 Hl. destruct l1; discriminate Hl. }
    intros H. apply sbind_cases in H as [(m1 & r1 & a & H1 & H)|(Hx & y & Hy & H)].
    + pose proof (Hs m r) as [Ha _]. rewrite H1 in Ha. cbn [fst snd] in Ha.
      pose proof (Hp _ _ _ _ _ Hb H1) as (Hv1 & HR1 & HP1). cbn beta iota in *.
      assert (Hb1 : bytes_ok (rbuf r1) = true) by (eapply adv_bytes; eauto).
      apply sbind_cases in H as [(m2 & r2 & l & H2 & H)|(Hx & y & Hy & H)].
      * unfold sret in H. inversion H; subst. apply (IH _ _ _ _ _ Hb1) in H2 as (Hv2 & HR2 & HP2).
        cbn [flat_map]. split; [|split].
        -- intros i. rewrite Hv2, after_app. now apply after_ext.
        -- apply Forall_app. split; [assumption|]. now apply (R_suffix r r1).
        -- intros l1 b l2 Hl. destruct l1 as [|a' l1]; cbn in Hl; inversion Hl; subst; [exact HP1|].
           cbn [flat_map]. eapply He; [|apply (HP2 l1 b l2 eq_refl)].
           intros i. rewrite after_app. now apply after_ext.
      * apply (IH _ _ _ _ _ Hb1) in H. destruct y; try contradiction;
          destruct H as (l & Hv2 & HR2); destruct x; try contradiction;
          (exists (f a ++ l); split; [intros i; rewrite Hv2, after_app; now apply after_ext|];
           apply Forall_app; split; [assumption|now apply (R_suffix r r1)]).
    + apply (Hp _ _ _ _ _ Hb) in H. destruct y; try contradiction; destruct x; try contradiction; exact H.
Qed.
Lemma teach_while_all {A} cond (p : sparser T A) f P : ssafe p -> extp P -> teach p f P ->
  teach (swhile_all cond p) (flat_map f) (each f P).
Proof. intros H1 H2 H3 m r m' r' x. unfold swhile_all. now apply teach_while. Qed.
End Teach.

(* ---- announces, mentions ---- *)
Lemma announces_mono pre b post i n : announces b i n -> announces (pre ++ b ++ post) i n.
Proof. intros (p & q & ->). exists (pre ++ p), (q ++ post). now rewrite <- !app_assoc. Qed.
Lemma mentions_mono pre b post i : mentions b i -> mentions (pre ++ b ++ post) i.
Proof. intros (p & q & ->). exists (pre ++ p), (q ++ post). now rewrite <- !app_assoc. Qed.
Lemma be_2_digits b : blen b = 2 -> bytes_ok b = true -> b = [be_val b / 256; be_val b mod 256].
Proof.
  destruct b as [|x [|y [|z b]]]; repeat rewrite ?blen_cons, ?blen_nil; intros Hl H; try lia.
  rewrite be_val_2. rewrite !bytes_ok_cons in H. f_equal; [|f_equal]; lia.
Qed.
Lemma ptimes_len {A} (p : parser ferr A) : forall n r r' l, ptimes n p r = (r', Ok l) -> length l = n.
Proof.
  induction n as [|n IH]; cbn [ptimes]; intros r r' l H; pinv; [reflexivity|].
  apply IH in H1. cbn. now rewrite H1.
Qed.

Section Templates.
Context (iana : N -> option dtype) (vendor : N -> option (N -> option dtype)) (millis_ok : Z -> bool).
Definition view (m : tmap) (i : N) : option layout :=
  match tget i m with Some t => Some (t_scope t, t_fields t) | None => None end.
Definition Ra (buf : list N) (e : N * layout) : Prop := announces buf (fst e) (blen (fst (snd e)) + blen (snd (snd e))).
Lemma Ra_mono pre b post e : Ra b e -> Ra (pre ++ b ++ post) e.
Proof. apply announces_mono. Qed.
Definition any {A} (v : N -> option layout) (a : A) : Prop := True.

Lemma view_tset m i t j : view (tset i t m) j = if j =? i then Some (t_scope t, t_fields t) else view m j.
Proof.
  unfold view, tget, tset. rewrite (mget_mset N.eqb N.eqb_spec). destruct (j =? i); reflexivity.
Qed.
Lemma read_u16_inv r r' v : read_u16 r = (r', Ok v) ->
  exists b, rbuf r = b ++ rbuf r' /\ blen b = 2 /\ v = be_val b.
Proof. intros H. apply read_be_ok in H as (b & H1 & _ & H2 & H3). eauto. Qed.

(* one step of a successful prefix; an error here leaves the map as it was *)
Tactic Notation "sbq" hyp(H) ident(r1) ident(a) ident(Ha) :=
  let m1 := fresh "m" in
  apply sbind_cases in H as [(m1 & r1 & a & Ha & H)|(? & ? & ? & H)];
  [first [apply plift_ok in Ha as [-> Ha]|apply slift_inv in Ha as [-> Ha]]
  |apply slift_inv in H as [-> _];
   match goal with
   | Hx : bad ?x |- match ?x with Ok _ => _ | _ => _ end =>
     destruct x; try contradiction; (exists []; split; [intros; now rewrite after_nil|constructor])
   end].
Ltac silent H := unfold sfail in H; inversion H; subst; exists []; split; [reflexivity|constructor].

Lemma teach_trec : teach view Ra (p_trec iana vendor) (fun t => [(tr_id t, ([], tr_fields t))]) any.
Proof.
  intros m r m' r' x Hb H. unfold p_trec in H.
  sbq H r1 id H1. destruct (id <? 256); [silent H|].
  apply peek_be_ok in H1 as (-> & _ & Hid).
  sbq H r2 id2 H2. sbq H r3 n H3. sbq H r4 fs H4.
  unfold sbind, smod, sret in H. inversion H; subst; clear H. cbn [tr_id tr_fields].
  split; [|split; [|exact I]].
  - intros i. rewrite view_tset, after_one. reflexivity.
  - constructor; [|constructor]. unfold Ra; cbn [fst snd]. rewrite blen_nil.
    apply ptimes_len in H4. apply read_u16_inv in H2 as (b1 & Hr1 & Hl1 & _).
    apply read_u16_inv in H3 as (b2 & Hr2 & Hl2 & ->).
    rewrite Hr1, take_app_exact by (now symmetry). rewrite Hr2.
    rewrite Hr1, Hr2, !bytes_ok_app, !andb_true_iff in Hb.
    exists [], (rbuf r3). cbn [app]. rewrite (be_2_digits b1) at 1 by tauto. rewrite (be_2_digits b2) at 1 by tauto.
    replace (0 + blen fs) with (be_val b2) by (unfold blen; lia). reflexivity.
Qed.
Lemma teach_otrec : teach view Ra (p_otrec iana vendor) (fun t => [(ot_id t, (ot_scope t, ot_fields t))]) any.
Proof.
  intros m r m' r' x Hb H. unfold p_otrec in H.
  sbq H r1 id H1. destruct (id <? 256); [silent H|].
  apply peek_be_ok in H1 as (-> & _ & Hid).
  sbq H r2 id2 H2. sbq H r3 n H3. sbq H r4 sc H4. destruct (n <? sc) eqn:Hn; [silent H|].
  sbq H r5 sc2 H5. sbq H r6 ss H6. sbq H r7 fs H7.
  unfold sbind, smod, sret in H. inversion H; subst; clear H. cbn [ot_id ot_scope ot_fields].
  split; [|split; [|exact I]].
  - intros i. rewrite view_tset, after_one. reflexivity.
  - constructor; [|constructor]. unfold Ra; cbn [fst snd].
    apply ptimes_len in H6. apply ptimes_len in H7. apply read_u16_inv in H2 as (b1 & Hr1 & Hl1 & _).
    apply read_u16_inv in H3 as (b2 & Hr2 & Hl2 & ->).
    rewrite Hr1, take_app_exact by (now symmetry). rewrite Hr2.
    rewrite Hr1, Hr2, !bytes_ok_app, !andb_true_iff in Hb.
    exists [], (rbuf r3). cbn [app]. rewrite (be_2_digits b1) at 1 by tauto. rewrite (be_2_digits b2) at 1 by tauto.
    replace (blen ss + blen fs) with (be_val b2) by (unfold blen; lia). reflexivity.
Qed.

(* ---- records follow their template ---- *)
Lemma p_field_ie pen id len r r' f : p_field iana vendor millis_ok pen id len r = (r', Ok f) -> ie_of_field f = (pen, id).
Proof.
  unfold p_field. destruct (classify iana vendor pen id) as [[t| |]|]; intros H; pinv; reflexivity.
Qed.
Lemma pmapm_map {X A Y} (p : X -> parser ferr A) (g : A -> Y) (h : X -> Y) :
  (forall x r r' a, p x r = (r', Ok a) -> g a = h x) ->
  forall l r r' as_, pmapm p l r = (r', Ok as_) -> map g as_ = map h l.
Proof.
  intros Hp. induction l as [|x l IH]; cbn [pmapm]; intros r r' as_ H; pinv; [reflexivity|].
  cbn [map]. f_equal; eauto.
Qed.
Lemma p_drec_follows t r r' d : p_drec iana vendor millis_ok t r = (r', Ok d) -> follows (t_scope t, t_fields t) d.
Proof.
  unfold p_drec. intros H. pinv. unfold follows; cbn [dr_scope dr_fields fst snd]. 
  split; (eapply pmapm_map; [|eassumption]); intros s q q' a Hs; unfold p_fspec_field in Hs; apply p_field_ie in Hs; exact Hs.
Qed.
Lemma swhile_all_lift {T A} cond (p : parser ferr A) (Q : A -> Prop) :
  (forall r r' a, p r = (r', Ok a) -> Q a) ->
  forall n (t : T) r t' r' x, swhile n cond (slift p) t r = (t', r', x) ->
  t' = t /\ match x with Ok l => Forall Q l | _ => True end.
Proof.
  intros Hp. induction n as [|n IH]; cbn [swhile]; intros t r t' r' x H.
  - destruct (cond r); inversion H; subst; auto.
  - destruct (cond r); [|inversion H; subst; auto].
    apply sbind_cases in H as [(m1 & r1 & a & Ha & H)|(Hx & y & Hy & H)].
    + apply slift_inv in Ha as [-> Ha]. apply Hp in Ha.
      apply sbind_cases in H as [(m2 & r2 & l & Hl & H)|(Hx & y & Hy & H)].
      * apply IH in Hl as [-> Hl]. unfold sret in H. inversion H; subst. auto.
      * apply IH in H as [-> _]. split; [reflexivity|]. destruct x; auto; contradiction.
    + apply slift_inv in H as [-> _]. split; [reflexivity|]. destruct x; auto; contradiction.
Qed.

(* ---- sets ---- *)
Definition used (v : N -> option layout) (s : iset) : Prop :=
  match s with SData id l => exists lay, v id = Some lay /\ Forall (follows lay) l | _ => True end.
Lemma used_ext : extp used.
Proof. intros v v' [l|l|id l] H; cbn; auto. intros (lay & H1 & H2). exists lay. rewrite <- H. auto. Qed.
Lemma any_ext {A} : extp (@any A). Proof. intros v v' a H; auto. Qed.
Lemma view_tincr id m i : view (tincr id m) i = view m i.
Proof.
  unfold tincr. destruct (tget id m) as [t|] eqn:E; [|reflexivity]. rewrite view_tset. cbn [t_scope t_fields].
  destruct (N.eqb_spec i id); [|reflexivity]. subst. unfold view. now rewrite E.
Qed.
Lemma flat_map_one {A B} (f : A -> B) l : flat_map (fun x => [f x]) l = map f l.
Proof. induction l as [|x l IH]; cbn; [reflexivity|now rewrite IH]. Qed.

Lemma teach_iset : teach view Ra (p_iset iana vendor millis_ok) templates_of used.
Proof.
  intros m r m' r' x Hb H. unfold p_iset in H.
  sbq H r1 id H1. apply peek_be_ok in H1 as (-> & _ & Hid).
  destruct (negb (id =? 2) && negb (id =? 3) && (id <? 256)); [silent H|].
  sbq H r2 id2 H2. sbq H r3 len H3. apply peek_be_ok in H3 as (-> & _ & Hlen).
  destruct (len <? 4); [silent H|]. sbq H r4 len2 H4. sbq H r5 sub H5.
  apply read_u16_inv in H2 as (b1 & Hr1 & _ & _). apply read_u16_inv in H4 as (b2 & Hr2 & _ & _).
  apply take_slice_ok in H5 as (Hr3 & _ & _ & _).
  assert (Hbuf : rbuf r = (b1 ++ b2) ++ rbuf sub ++ rbuf r5) by (rewrite Hr1, Hr2, Hr3, <- !app_assoc; reflexivity).
  assert (Hsub : bytes_ok (rbuf sub) = true).
  { rewrite Hbuf, !bytes_ok_app, !andb_true_iff in Hb. tauto. }
  assert (Hlift : forall l, Forall (Ra (rbuf sub)) l -> Forall (Ra (rbuf r)) l).
  { intros l Hl. rewrite Hbuf. eapply Forall_impl; [|exact Hl]. intros e. apply Ra_mono. }
  destruct (id =? 2); [|destruct (id =? 3)].
  - apply sbind_cases in H as [(m1 & q & l & H & Hq)|(Hx & y & Hy & H)];
      unfold son_sub in H; destruct (swhile_all _ _ m sub) as [[m2 r6] z] eqn:E; inversion H; subst;
      apply (teach_while_all view Ra Ra_mono _ _ _ _ (ssafe_trec iana vendor) any_ext teach_trec) in E; [|assumption| |assumption].
    + unfold sret in Hq. inversion Hq; subst. destruct E as (Hv & HR & _). rewrite flat_map_one in Hv, HR.
      split; [exact Hv|]. split; [now apply Hlift|exact I].
    + destruct y; try contradiction; destruct E as (l & Hv & HR); destruct x; try contradiction;
        (exists l; split; [exact Hv|now apply Hlift]).
  - apply sbind_cases in H as [(m1 & q & l & H & Hq)|(Hx & y & Hy & H)]; unfold son_sub in H;
      match type of H with (let (_, _) := ?e in _) = _ => destruct e as [[m2 r6] z] eqn:E end;
      inversion H; subst; clear H.
    + unfold sret in Hq. inversion Hq; subst.
      apply sbind_cases in E as [(m3 & q3 & l3 & E & E3)|(Hx & y & Hy & E)]; [|contradiction].
      apply (teach_while_all view Ra Ra_mono _ _ _ _ (ssafe_otrec iana vendor) any_ext teach_otrec) in E; [|assumption].
      destruct E as (Hv & HR & _). rewrite flat_map_one in Hv, HR.
      apply sbind_cases in E3 as [(m4 & q4 & u & E4 & E3)|(Hx & y & Hy & E3)]; [|contradiction].
      apply slift_inv in E4 as [-> _]. unfold sret in E3. inversion E3; subst.
      split; [exact Hv|]. split; [now apply Hlift|exact I].
    + apply sbind_cases in E as [(m3 & q3 & l3 & E & E3)|(Hx2 & y2 & Hy2 & E)];
        apply (teach_while_all view Ra Ra_mono _ _ _ _ (ssafe_otrec iana vendor) any_ext teach_otrec) in E; try assumption.
      * destruct E as (Hv & HR & _). rewrite flat_map_one in Hv, HR.
        assert (m' = m3) as ->.
        { apply sbind_cases in E3 as [(m4 & q4 & u & E4 & E3)|(Hx3 & y3 & Hy3 & E3)].
          - apply slift_inv in E4 as [-> _]. unfold sret in E3. inversion E3; subst. reflexivity.
          - apply slift_inv in E3 as [-> _]. reflexivity. }
        destruct x; try contradiction; eexists; (split; [exact Hv|now apply Hlift]).
      * destruct y2; try contradiction; destruct E as (l & Hv & HR); destruct x; try contradiction;
          (exists l; split; [exact Hv|now apply Hlift]).
  - apply sbind_cases in H as [(m1 & q & m2 & H & Hq)|(Hx & y & Hy & H)];
      [|unfold sget in H; inversion H; subst; contradiction].
    unfold sget in H. inversion H; subst; clear H. rename Hq into H.
    destruct (tget _ m2) as [t|] eqn:Et; [|silent H].
    apply sbind_cases in H as [(m1 & q1 & l & H & Hq)|(Hx & y & Hy & H)]; unfold son_sub in H;
      match type of H with (let (_, _) := ?e in _) = _ => destruct e as [[m3 r6] z] eqn:E end;
      inversion H; subst; clear H; unfold swhile_all in E;
      apply (swhile_all_lift _ _ (follows (t_scope t, t_fields t))) in E as [-> E];
      try (intros; eapply p_drec_follows; eassumption).
    + unfold sbind, smod, sret in Hq. inversion Hq; subst. cbn [templates_of used].
      split; [intros i; rewrite view_tincr; reflexivity|]. split; [constructor|].
      exists (t_scope t, t_fields t). split; [|exact E]. unfold view. now rewrite Et.
    + destruct x; try contradiction; (exists []; split; [reflexivity|constructor]).
Qed.
Lemma teach_body : teach view Ra (p_body iana vendor millis_ok) (fun p => flat_map templates_of (ip_sets p))
  (fun v p => each templates_of used v (ip_sets p)).
Proof.
  intros m r m' r' x Hb H. unfold p_body in H.
  sbq H r1 a1 H1. sbq H r2 a2 H2. sbq H r3 a3 H3.
  assert (Ha : adv r r3).
  { assert (Hs : forall q q' v, read_u32 q = (q', Ok v) -> adv q q').
    { intros q q' v Hq. pose proof (safe_be 4 q) as [Ha _]. unfold read_u32 in Hq. rewrite Hq in Ha. exact Ha. }
    eapply adv_trans; [eapply Hs, H1|]. eapply adv_trans; [eapply Hs, H2|]. eapply Hs, H3. }
  assert (Hb3 : bytes_ok (rbuf r3) = true) by (eapply adv_bytes; eauto).
  apply sbind_cases in H as [(m1 & q & l & H & Hq)|(Hx & y & Hy & H)];
    apply (teach_while_all view Ra Ra_mono _ _ _ _ (ssafe_iset iana vendor millis_ok) used_ext teach_iset) in H; try assumption.
  - unfold sret in Hq. inversion Hq; subst. destruct H as (Hv & HR & HP). cbn [ip_sets].
    split; [exact Hv|]. split; [|exact HP]. now apply (R_suffix Ra Ra_mono r r3).
  - destruct y; try contradiction; destruct H as (l & Hv & HR); destruct x; try contradiction;
      (exists l; split; [exact Hv|now apply (R_suffix Ra Ra_mono r r3)]).
Qed.
End Templates.

(* ------------------------------ NetFlow v9 ------------------------------ *)
Tactic Notation "sbq" hyp(H) ident(r1) ident(a) ident(Ha) :=
  let m1 := fresh "m" in
  apply sbind_cases in H as [(m1 & r1 & a & Ha & H)|(? & ? & ? & H)];
  [first [apply plift_ok in Ha as [-> Ha]|apply slift_inv in Ha as [-> Ha]]
  |apply slift_inv in H as [-> _];
   match goal with
   | Hx : bad ?x |- match ?x with Ok _ => _ | _ => _ end =>
     destruct x; try contradiction; (exists []; split; [intros; now rewrite after_nil|constructor])
   end].
Ltac silent H := unfold sfail in H; inversion H; subst; exists []; split; [reflexivity|constructor].

Section NTemplates.
Context (iana : N -> option dtype) (vendor : N -> option (N -> option dtype)) (millis_ok : Z -> bool).
Definition nview (m : ntmap) (i : N) : option nlayout :=
  match nget i m with Some t => Some (nt_scope t, nt_fields t) | None => None end.
Definition Rm (buf : list N) (e : N * nlayout) : Prop := mentions buf (fst e).
Lemma Rm_mono pre b post e : Rm b e -> Rm (pre ++ b ++ post) e.
Proof. apply mentions_mono. Qed.
Definition nany {A} (v : N -> option nlayout) (a : A) : Prop := True.
Lemma nany_ext {A} : extp (@nany A). Proof. intros v v' a H; auto. Qed.
Lemma nview_set m i t j : nview (nset_ i t m) j = if j =? i then Some (nt_scope t, nt_fields t) else nview m j.
Proof.
  unfold nview, nget, nset_. rewrite (mget_mset N.eqb N.eqb_spec). destruct (j =? i); reflexivity.
Qed.
Lemma nview_incr id m i : nview (nincr id m) i = nview m i.
Proof.
  unfold nincr. destruct (nget id m) as [t|] eqn:E; [|reflexivity]. rewrite nview_set. cbn [nt_scope nt_fields].
  destruct (N.eqb_spec i id); [|reflexivity]. subst. unfold nview. now rewrite E.
Qed.
Lemma mentions_head b rest : blen b = 2 -> bytes_ok (b ++ rest) = true -> mentions (b ++ rest) (be_val b).
Proof.
  intros Hl Hb. rewrite bytes_ok_app, andb_true_iff in Hb. exists [], rest. cbn [app].
  rewrite (be_2_digits b) at 1 by tauto. reflexivity.
Qed.

Lemma teach_ntrec : teach nview Rm (p_ntrec iana vendor) (fun t => [(tr_id t, ([], tr_fields t))]) nany.
Proof.
  intros m r m' r' x Hb H. unfold p_ntrec in H.
  sbq H r1 id H1. destruct (id <? 256); [silent H|].
  apply peek_be_ok in H1 as (-> & _ & Hid).
  sbq H r2 id2 H2. sbq H r3 n H3. sbq H r4 fs H4.
  unfold sbind, smod, sret in H. inversion H; subst; clear H. cbn [tr_id tr_fields].
  split; [|split; [|exact I]].
  - intros i. rewrite nview_set, after_one. reflexivity.
  - constructor; [|constructor]. unfold Rm; cbn [fst snd].
    apply read_u16_inv in H2 as (b1 & Hr1 & Hl1 & _).
    rewrite Hr1, take_app_exact by (now symmetry). apply mentions_head; [assumption|]. now rewrite <- Hr1.
Qed.
Lemma teach_notrec : teach nview Rm (p_notrec iana vendor) (fun t => [(no_id t, (no_scope t, no_fields t))]) nany.
Proof.
  intros m r m' r' x Hb H. unfold p_notrec in H.
  sbq H r1 id H1. destruct (id <? 256); [silent H|].
  apply peek_be_ok in H1 as (-> & _ & Hid).
  sbq H r2 id2 H2. sbq H r3 n H3. sbq H r4 sc H4. sbq H r5 sc2 H5. sbq H r6 ss H6. sbq H r7 fs H7. sbq H r8 fs2 H8.
  unfold sbind, smod, sret in H. inversion H; subst; clear H. cbn [no_id no_scope no_fields].
  split; [|split; [|exact I]].
  - intros i. rewrite nview_set, after_one. reflexivity.
  - constructor; [|constructor]. unfold Rm; cbn [fst snd].
    apply read_u16_inv in H2 as (b1 & Hr1 & Hl1 & _).
    rewrite Hr1, take_app_exact by (now symmetry). apply mentions_head; [assumption|]. now rewrite <- Hr1.
Qed.
Lemma p_nscope_ie s r r' f : p_nscope s r = (r', Ok f) -> ie_of_scope f = ns_ie s.
Proof. unfold p_nscope. destruct (ns_ie s); intros H; pinv; reflexivity. Qed.
Lemma p_ndrec_follows t r r' d : p_ndrec iana vendor millis_ok t r = (r', Ok d) -> nfollows (nt_scope t, nt_fields t) d.
Proof.
  unfold p_ndrec. intros H. pinv. unfold nfollows; cbn [nd_scope nd_fields fst snd].
  split; (eapply pmapm_map; [|eassumption]); intros s q q' a Hs.
  - now apply p_nscope_ie in Hs.
  - unfold p_fspec_field in Hs; apply p_field_ie in Hs; exact Hs.
Qed.
Definition nused (v : N -> option nlayout) (s : nset) : Prop :=
  match s with NSData id l => exists lay, v id = Some lay /\ Forall (nfollows lay) l | _ => True end.
Lemma nused_ext : extp nused.
Proof. intros v v' [l|l|id l] H; cbn; auto. intros (lay & H1 & H2). exists lay. rewrite <- H. auto. Qed.

Definition p_counted (id : N) (t : ntmpl) : sparser ntmap ndrec :=
  sdo x <- slift (p_ndrec iana vendor millis_ok t);; sdo_ smod (nincr id);; sret x.
Lemma teach_counted id t :
  teach nview Rm (p_counted id t) (fun _ => []) (fun _ d => nfollows (nt_scope t, nt_fields t) d).
Proof.
  intros m r m' r' x Hb H. unfold p_counted in H. sbq H r1 d H1.
  unfold sbind, smod, sret in H. inversion H; subst; clear H.
  split; [intros i; now rewrite nview_incr|]. split; [constructor|]. now apply p_ndrec_follows in H1.
Qed.
Lemma ssafe_counted id t : ssafe (p_counted id t).
Proof. unfold p_counted. ssafe1. apply ssafe_lift, safe_ndrec. Qed.
Lemma flat_map_nil {A B} (l : list A) : flat_map (fun _ : A => @nil B) l = [].
Proof. induction l; auto. Qed.

Lemma teach_nset : teach nview Rm (p_nset iana vendor millis_ok) ntemplates_of nused.
Proof.
  intros m r m' r' x Hb H. unfold p_nset in H.
  sbq H r1 id H1. apply peek_be_ok in H1 as (-> & _ & Hid).
  destruct (negb (id =? 0) && negb (id =? 1) && (id <? 256)); [silent H|].
  sbq H r2 id2 H2. sbq H r3 len H3. apply peek_be_ok in H3 as (-> & _ & Hlen).
  destruct (len <? 4); [silent H|]. sbq H r4 len2 H4. sbq H r5 sub H5.
  apply read_u16_inv in H2 as (b1 & Hr1 & _ & _). apply read_u16_inv in H4 as (b2 & Hr2 & _ & _).
  apply take_slice_ok in H5 as (Hr3 & _ & _ & _).
  assert (Hbuf : rbuf r = (b1 ++ b2) ++ rbuf sub ++ rbuf r5) by (rewrite Hr1, Hr2, Hr3, <- !app_assoc; reflexivity).
  assert (Hsub : bytes_ok (rbuf sub) = true).
  { rewrite Hbuf, !bytes_ok_app, !andb_true_iff in Hb. tauto. }
  assert (Hlift : forall l, Forall (Rm (rbuf sub)) l -> Forall (Rm (rbuf r)) l).
  { intros l Hl. rewrite Hbuf. eapply Forall_impl; [|exact Hl]. intros e. apply Rm_mono. }
  destruct (id =? 0); [|destruct (id =? 1)].
  - apply sbind_cases in H as [(m1 & q & l & H & Hq)|(Hx & y & Hy & H)];
      unfold son_sub in H; destruct (swhile_all _ _ m sub) as [[m2 r6] z] eqn:E; inversion H; subst;
      apply (teach_while_all nview Rm Rm_mono _ _ _ _ (ssafe_ntrec iana vendor) nany_ext teach_ntrec) in E; [|assumption| |assumption].
    + unfold sret in Hq. inversion Hq; subst. destruct E as (Hv & HR & _). rewrite flat_map_one in Hv, HR.
      split; [exact Hv|]. split; [now apply Hlift|exact I].
    + destruct y; try contradiction; destruct E as (l & Hv & HR); destruct x; try contradiction;
        (exists l; split; [exact Hv|now apply Hlift]).
  - apply sbind_cases in H as [(m1 & q & l & H & Hq)|(Hx & y & Hy & H)]; unfold son_sub in H;
      match type of H with (let (_, _) := ?e in _) = _ => destruct e as [[m2 r6] z] eqn:E end;
      inversion H; subst; clear H.
    + unfold sret in Hq. inversion Hq; subst.
      apply sbind_cases in E as [(m3 & q3 & l3 & E & E3)|(Hx & y & Hy & E)]; [|contradiction].
      apply (teach_while_all nview Rm Rm_mono _ _ _ _ (ssafe_notrec iana vendor) nany_ext teach_notrec) in E; [|assumption].
      destruct E as (Hv & HR & _). rewrite flat_map_one in Hv, HR.
      apply sbind_cases in E3 as [(m4 & q4 & u & E4 & E3)|(Hx & y & Hy & E3)]; [|contradiction].
      apply slift_inv in E4 as [-> _]. unfold sret in E3. inversion E3; subst.
      split; [exact Hv|]. split; [now apply Hlift|exact I].
    + apply sbind_cases in E as [(m3 & q3 & l3 & E & E3)|(Hx2 & y2 & Hy2 & E)];
        apply (teach_while_all nview Rm Rm_mono _ _ _ _ (ssafe_notrec iana vendor) nany_ext teach_notrec) in E; try assumption.
      * destruct E as (Hv & HR & _). rewrite flat_map_one in Hv, HR.
        assert (m' = m3) as ->.
        { apply sbind_cases in E3 as [(m4 & q4 & u & E4 & E3)|(Hx3 & y3 & Hy3 & E3)].
          - apply slift_inv in E4 as [-> _]. unfold sret in E3. inversion E3; subst. reflexivity.
          - apply slift_inv in E3 as [-> _]. reflexivity. }
        destruct x; try contradiction; eexists; (split; [exact Hv|now apply Hlift]).
      * destruct y2; try contradiction; destruct E as (l & Hv & HR); destruct x; try contradiction;
          (exists l; split; [exact Hv|now apply Hlift]).
  - apply sbind_cases in H as [(m1 & q & m2 & H & Hq)|(Hx & y & Hy & H)];
      [|unfold sget in H; inversion H; subst; contradiction].
    unfold sget in H. inversion H; subst; clear H. rename Hq into H.
    destruct (nget _ m2) as [t|] eqn:Et; [|silent H].
    set (id := be_val (take 2 (rbuf r))) in *.
    assert (Hloop : forall cond mm q mm' q' z, bytes_ok (rbuf q) = true ->
      (if n_record_len t =? 0 then sret [] else swhile_all cond (p_counted id t)) mm q = (mm', q', z) ->
      (forall i, nview mm' i = nview mm i) /\
      match z with Ok l => Forall (nfollows (nt_scope t, nt_fields t)) l | _ => True end).
    { intros cond mm q0 mm' q' z Hq0. destruct (n_record_len t =? 0).
      - unfold sret. intros E; inversion E; subst. auto.
      - intros E. apply (teach_while_all nview (fun _ _ => False) (fun _ _ _ _ F => F) cond (p_counted id t) (fun _ => [])
          (fun _ d => nfollows (nt_scope t, nt_fields t) d) (ssafe_counted id t)) in E; [|now intros ? ? ?| |assumption].
        + destruct z as [l|e| |].
          * destruct E as (Hv & _ & HP). rewrite flat_map_nil in Hv. split; [exact Hv|].
            apply Forall_forall. intros d Hd. apply in_split in Hd as (l1 & l2 & ->). apply (HP l1 d l2 eq_refl).
          * destruct E as ([|e0 l] & Hv & HR); [auto|inversion HR; contradiction].
          * destruct E as ([|e0 l] & Hv & HR); [auto|inversion HR; contradiction].
          * destruct E as ([|e0 l] & Hv & HR); [auto|inversion HR; contradiction].
        + intros m0 q1 m0' q1' x0 Hb0 E0. unfold p_counted in E0. sbq E0 r7 d H7.
          unfold sbind, smod, sret in E0. inversion E0; subst; clear E0.
          split; [intros i; now rewrite nview_incr|]. split; [constructor|]. now apply p_ndrec_follows in H7. }
    apply sbind_cases in H as [(m1 & q1 & l & H & Hq)|(Hx & y & Hy & H)]; unfold son_sub in H;
      match type of H with (let (_, _) := ?e in _) = _ => destruct e as [[m3 r6] z] eqn:E end;
      inversion H; subst; clear H.
    + unfold sret in Hq. inversion Hq; subst.
      apply sbind_cases in E as [(m4 & q4 & l4 & E & E3)|(? & y & ? & E)]; [|contradiction].
      apply Hloop in E as (Hv & HF); [|assumption].
      apply sbind_cases in E3 as [(m5 & q5 & u & E4 & E3)|(? & y & ? & E3)]; [|contradiction].
      apply slift_inv in E4 as [-> _]. unfold sret in E3. inversion E3; subst.
      cbn [ntemplates_of nused]. split; [exact Hv|]. split; [constructor|].
      exists (nt_scope t, nt_fields t). split; [|exact HF]. unfold nview. now rewrite Et.
    + assert (Hv : forall i, nview m' i = nview m2 i).
      { apply sbind_cases in E as [(m4 & q4 & l4 & E & E3)|(? & y2 & ? & E)]; apply Hloop in E as (Hv & _); try assumption.
        apply sbind_cases in E3 as [(m5 & q5 & u & E4 & E3)|(? & y3 & ? & E3)].
        - apply slift_inv in E4 as [-> _]. unfold sret in E3. inversion E3; subst. exact Hv.
        - apply slift_inv in E3 as [-> _]. exact Hv. }
      destruct x; try contradiction; (exists []; split; [exact Hv|constructor]).
Qed.
Lemma teach_nsets : forall n count i,
  teach nview Rm (p_nsets iana vendor millis_ok n count i) (flat_map ntemplates_of) (each ntemplates_of nused).
Proof.
  assert (Hnil : forall (v : N -> option nlayout), each ntemplates_of nused v []).
  { intros v l1 a l2 Hl. destruct l1; discriminate Hl. }
  induction n as [|n IH]; intros count i m r m' r' x Hb; cbn [p_nsets].
  - destruct ((0 <? i) && (3 <? remaining r)); intros H; inversion H; subst; cbn.
    + exists []. split; [reflexivity|constructor].
    + split; [reflexivity|]. split; [constructor|]. apply Hnil.
  - destruct ((0 <? i) && (3 <? remaining r)).
    2: { intros H; inversion H; subst; cbn. split; [reflexivity|]. split; [constructor|]. apply Hnil. }
    intros H. apply sbind_cases in H as [(m1 & r1 & a & H1 & H)|(Hx & y & Hy & H)].
    + pose proof (ssafe_nset iana vendor millis_ok m r) as [Ha _]. rewrite H1 in Ha. cbn [fst snd] in Ha.
      pose proof (teach_nset _ _ _ _ _ Hb H1) as (Hv1 & HR1 & HP1). cbn beta iota in *.
      assert (Hb1 : bytes_ok (rbuf r1) = true) by (eapply adv_bytes; eauto).
      destruct (i <? nset_takes a).
      { unfold sfail in H. inversion H; subst. exists (ntemplates_of a). auto. }
      apply sbind_cases in H as [(m2 & r2 & l & H2 & H)|(Hx & y & Hy & H)].
      * unfold sret in H. inversion H; subst. apply (IH _ _ _ _ _ _ _ Hb1) in H2 as (Hv2 & HR2 & HP2).
        cbn [flat_map]. split; [|split].
        -- intros j. rewrite Hv2, after_app. now apply after_ext.
        -- apply Forall_app. split; [assumption|]. now apply (R_suffix Rm Rm_mono r r1).
        -- intros l1 b l2 Hl. destruct l1 as [|a' l1]; cbn in Hl; inversion Hl; subst; [exact HP1|].
           cbn [flat_map]. eapply nused_ext; [|apply (HP2 l1 b l2 eq_refl)].
           intros j. rewrite after_app. now apply after_ext.
      * apply (IH _ _ _ _ _ _ _ Hb1) in H. destruct y; try contradiction;
          destruct H as (l & Hv2 & HR2); destruct x; try contradiction;
          (exists (ntemplates_of a ++ l); split; [intros j; rewrite Hv2, after_app; now apply after_ext|];
           apply Forall_app; split; [assumption|now apply (R_suffix Rm Rm_mono r r1)]).
    + apply (teach_nset _ _ _ _ _ Hb) in H. destruct y; try contradiction; destruct x; try contradiction; exact H.
Qed.
Lemma teach_npkt : teach nview Rm (p_npkt iana vendor millis_ok) (fun p => flat_map ntemplates_of (np_sets p))
  (fun v p => each ntemplates_of nused v (np_sets p)).
Proof.
  intros m r m' r' x Hb H. unfold p_npkt in H.
  sbq H r1 v H1. apply peek_be_ok in H1 as (-> & _ & _). destruct (negb (v =? 9)); [silent H|].
  sbq H r2 a2 H2. sbq H r3 a3 H3. sbq H r4 a4 H4. sbq H r5 a5 H5. sbq H r6 a6 H6. sbq H r7 a7 H7.
  assert (Hs : forall k q q' v, read_be k q = (q', Ok v) -> adv q q').
  { intros k q q' w Hq. pose proof (safe_be k q) as [Ha _]. rewrite Hq in Ha. exact Ha. }
  assert (Ha : adv r r7).
  { eapply adv_trans; [eapply Hs, H2|]. eapply adv_trans; [eapply Hs, H3|]. eapply adv_trans; [eapply Hs, H4|].
    eapply adv_trans; [eapply Hs, H5|]. eapply adv_trans; [eapply Hs, H6|]. eapply Hs, H7. }
  assert (Hb3 : bytes_ok (rbuf r7) = true) by (eapply adv_bytes; eauto).
  apply sbind_cases in H as [(m1 & q & l & H & Hq)|(Hx & y & Hy & H)]; apply teach_nsets in H; try assumption.
  - unfold sret in Hq. inversion Hq; subst. destruct H as (Hv & HR & HP). cbn [np_sets].
    split; [exact Hv|]. split; [|exact HP]. now apply (R_suffix Rm Rm_mono r r7).
  - destruct y; try contradiction; destruct H as (l & Hv & HR); destruct x; try contradiction;
      (exists l; split; [exact Hv|now apply (R_suffix Rm Rm_mono r r7)]).
Qed.
End NTemplates.

(* ------------------------------ decoder ------------------------------ *)
Section Codec.
Context (iana : N -> option dtype) (vendor : N -> option (N -> option dtype)) (millis_ok : Z -> bool).
Notation decode := (decode iana vendor millis_ok).

(* one datagram *)
Lemma decode_teaches c buf c' rest o : bytes_ok buf = true -> decode c buf = (c', rest, o) ->
  (exists sets, taught buf o sets /\ (forall i, cached c' i = in_force (cached c) sets i) /\
    match o with Packet (Ipfix p) => each templates_of used (cached c) (ip_sets p) | _ => True end) /\
  (exists sets, ntaught buf o sets /\ (forall i, ncached c' i = nin_force (ncached c) sets i) /\
    match o with Packet (NetFlow p) => each ntemplates_of nused (ncached c) (np_sets p) | _ => True end).
Proof.
  intros Hb H.
  assert (Hquiet : forall e, o = Rejected e \/ o = NeedMore -> c' = c ->
    (exists sets, taught buf o sets /\ (forall i, cached c' i = in_force (cached c) sets i) /\
    match o with Packet (Ipfix p) => each templates_of used (cached c) (ip_sets p) | _ => True end) /\
    (exists sets, ntaught buf o sets /\ (forall i, ncached c' i = nin_force (ncached c) sets i) /\
    match o with Packet (NetFlow p) => each ntemplates_of nused (ncached c) (np_sets p) | _ => True end)).
  { intros e [-> | ->] ->; (split; exists []; (split; [cbn; try contradiction; auto|]); (split; [reflexivity|exact I])). }
  destruct (N.ltb_spec (blen buf) 16) as [H1|H1].
  { rewrite decode_short in H by auto. inversion H; subst. apply (Hquiet FE_Utf8); auto. }
  destruct (N.ltb_spec (blen buf) (declared buf)) as [H2|H2].
  { rewrite decode_short in H by auto. inversion H; subst. apply (Hquiet FE_Utf8); auto. }
  destruct (N.eq_dec (version_of buf) 10) as [Hv|Hv].
  - destruct (N.ltb_spec (declared buf) 16) as [H3|H3].
    { rewrite decode_ipfix_tiny in H by assumption. inversion H; subst. eapply Hquiet; eauto. }
    destruct (split4 buf) as (v & l & tl & Hbf & Hvl & Hl & Hvv & Hdd); [lia|].
    assert (Hlen : 4 + blen tl = blen buf) by (rewrite Hbf, !blen_app; lia).
    destruct (app_split_at tl (declared buf - 4)) as (x & rest' & Htl & Hx); [lia|].
    rewrite Hbf, Htl, decode_ipfix_eq in H by lia.
    pose proof (p_body_no_crash iana vendor millis_ok (c_ipfix c) (mkR x 4)) as Hn.
    destruct (p_body iana vendor millis_ok (c_ipfix c) (mkR x 4)) as [[m' r'] z] eqn:E. cbn [snd] in Hn.
    assert (Hbx : bytes_ok (rbuf (mkR x 4)) = true).
    { rewrite Hbf, Htl, !bytes_ok_app, !andb_true_iff in Hb. cbn [rbuf]. tauto. }
    apply (teach_body iana vendor millis_ok _ _ _ _ _ Hbx) in E. inversion H; subst; clear H. cbn [rbuf] in E.
    split.
    + destruct z as [p|e| |]; try contradiction; cbn [out_of].
      * destruct E as (Ev & _ & EP). exists (ip_sets p). cbn [taught]. split; [reflexivity|]. split; [exact Ev|exact EP].
      * destruct E as (l0 & Ev & ER).
        assert (Hex : exists sets, flat_map templates_of sets = l0).
        { clear. induction l0 as [|[i [sc fl]] l0 [sets IH]]; [exists []; reflexivity|].
          exists (SOptions [mkOT i sc fl] :: sets). cbn. now rewrite IH. }
        destruct Hex as (sets & <-). exists sets. split; [|split; [exact Ev|exact I]].
        cbn [taught]. intros i sc fl Hi. rewrite Forall_forall in ER. specialize (ER _ Hi). unfold Ra in ER. cbn [fst snd] in ER.
        rewrite (app_assoc v l). now apply announces_mono.
    + exists []. split; [destruct z; cbn; auto; contradiction|]. split; [reflexivity|].
      destruct z; exact I.
  - rewrite decode_long in H by lia. replace (version_of buf =? 10) with false in H by lia.
    destruct (version_of buf =? 9) eqn:E9; [|inversion H; subst; eapply Hquiet; eauto].
    unfold decode_netflow in H.
    pose proof (ssafe_npkt iana vendor millis_ok (c_netflow c) (rnew buf)) as [_ Hn].
    destruct (p_npkt iana vendor millis_ok (c_netflow c) (rnew buf)) as [[m' r'] z] eqn:E. cbn [snd] in Hn.
    apply (teach_npkt iana vendor millis_ok) in E; [|exact Hb]. unfold rnew in E; cbn [rbuf] in E.
    split.
    + exists []. destruct z as [p|e| |]; try contradiction; inversion H; subst; (split; [cbn; auto; contradiction|]);
        (split; [reflexivity|exact I]).
    + destruct z as [p|e| |]; try contradiction; inversion H; subst.
      * destruct E as (Ev & _ & EP). exists (np_sets p). cbn [ntaught]. split; [reflexivity|]. split; [exact Ev|exact EP].
      * destruct E as (l0 & Ev & ER).
        assert (Hex : exists sets, flat_map ntemplates_of sets = l0).
        { clear. induction l0 as [|[i [sc fl]] l0 [sets IH]]; [exists []; reflexivity|].
          exists (NSOptions [mkNO i sc fl] :: sets). cbn. now rewrite IH. }
        destruct Hex as (sets & <-). exists sets. split; [|split; [exact Ev|exact I]].
        cbn [ntaught]. intros i y Hi. rewrite Forall_forall in ER. exact (ER _ Hi).
Qed.

Lemma receive_ipfix : forall ds c outs c', Forall (fun d => bytes_ok d = true) ds ->
  receive iana vendor millis_ok c ds = (outs, c') ->
  exists learnt, length learnt = length ds /\ length outs = length ds /\
  (forall k d o sets, nth_error ds k = Some d -> nth_error outs k = Some o -> nth_error learnt k = Some sets -> taught d o sets) /\
  (forall k p before id recs rest, nth_error outs k = Some (Packet (Ipfix p)) -> ip_sets p = before ++ SData id recs :: rest ->
    exists lay, in_force (cached c) (concat (firstn k learnt) ++ before) id = Some lay /\ Forall (follows lay) recs) /\
  (forall i, cached c' i = in_force (cached c) (concat learnt) i).
Proof.
  induction ds as [|d ds IH]; intros c outs c' Hb H; cbn [receive] in H.
  - inversion H; subst. exists []. repeat split; try (intros [|k]; intros; discriminate).
  - destruct (decode c d) as [[c1 rest1] o] eqn:Ed. destruct (receive iana vendor millis_ok c1 ds) as [os c2] eqn:Er.
    inversion H; subst; clear H. inversion Hb as [|? ? Hb1 Hb2]; subst.
    apply decode_teaches in Ed as [(sets & Ht & Hv & HP) _]; [|assumption].
    apply IH in Er as (learnt & Hl1 & Hl2 & Ht' & HP' & Hv'); [|assumption].
    exists (sets :: learnt). cbn [length]. split; [lia|]. split; [lia|]. split; [|split].
    + intros [|k] d' o' s'; cbn [nth_error]; [|apply Ht'].
      intros E1 E2 E3; inversion E1; inversion E2; inversion E3; subst; assumption.
    + intros [|k] p before id recs rest; cbn [nth_error firstn concat app].
      * intros E Hs. inversion E; subst. specialize (HP before _ rest Hs). exact HP.
      * intros E Hs. destruct (HP' _ _ _ _ _ _ E Hs) as (lay & Hlay & HF). exists lay. split; [|exact HF].
        rewrite <- Hlay. unfold in_force. rewrite <- app_assoc, flat_map_app, after_app. apply after_ext. intros j. now rewrite Hv.
    + intros i. rewrite Hv'. cbn [concat]. unfold in_force. rewrite flat_map_app, after_app. apply after_ext. exact Hv.
Qed.
Lemma receive_netflow : forall ds c outs c', Forall (fun d => bytes_ok d = true) ds ->
  receive iana vendor millis_ok c ds = (outs, c') ->
  exists learnt, length learnt = length ds /\ length outs = length ds /\
  (forall k d o sets, nth_error ds k = Some d -> nth_error outs k = Some o -> nth_error learnt k = Some sets -> ntaught d o sets) /\
  (forall k p before id recs rest, nth_error outs k = Some (Packet (NetFlow p)) -> np_sets p = before ++ NSData id recs :: rest ->
    exists lay, nin_force (ncached c) (concat (firstn k learnt) ++ before) id = Some lay /\ Forall (nfollows lay) recs) /\
  (forall i, ncached c' i = nin_force (ncached c) (concat learnt) i).
Proof.
  induction ds as [|d ds IH]; intros c outs c' Hb H; cbn [receive] in H.
  - inversion H; subst. exists []. repeat split; try (intros [|k]; intros; discriminate).
  - destruct (decode c d) as [[c1 rest1] o] eqn:Ed. destruct (receive iana vendor millis_ok c1 ds) as [os c2] eqn:Er.
    inversion H; subst; clear H. inversion Hb as [|? ? Hb1 Hb2]; subst.
    apply decode_teaches in Ed as [_ (sets & Ht & Hv & HP)]; [|assumption].
    apply IH in Er as (learnt & Hl1 & Hl2 & Ht' & HP' & Hv'); [|assumption].
    exists (sets :: learnt). cbn [length]. split; [lia|]. split; [lia|]. split; [|split].
    + intros [|k] d' o' s'; cbn [nth_error]; [|apply Ht'].
      intros E1 E2 E3; inversion E1; inversion E2; inversion E3; subst; assumption.
    + intros [|k] p before id recs rest; cbn [nth_error firstn concat app].
      * intros E Hs. inversion E; subst. specialize (HP before _ rest Hs). exact HP.
      * intros E Hs. destruct (HP' _ _ _ _ _ _ E Hs) as (lay & Hlay & HF). exists lay. split; [|exact HF].
        rewrite <- Hlay. unfold nin_force. rewrite <- app_assoc, flat_map_app, after_app. apply after_ext. intros j. now rewrite Hv.
    + intros i. rewrite Hv'. cbn [concat]. unfold nin_force. rewrite flat_map_app, after_app. apply after_ext. exact Hv.
Qed.
End Codec.
