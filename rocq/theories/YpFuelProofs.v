(* Every function of the scanner moves forward, so one turn per character is
   enough; ASCII texts never panic. *)
From Coq Require Import String.
From Verif Require Import Base YpModel YpSpec.

Section U.
Variable u_white u_alpha u_num : N -> bool.
Notation white := (white u_white).
Notation alpha := (alpha u_alpha).
Notation skip_ws_m := (skip_ws_m u_white).
Notation skip_ws := (skip_ws u_white).

Notation span_id := (span_id u_alpha u_num).
Notation read_identifier := (read_identifier u_alpha u_num).
Notation concat_loop := (concat_loop u_white).
Notation read_value := (read_value u_white u_alpha u_num).
Notation peek_identifier := (peek_identifier u_alpha u_num).
Notation match_keyword := (match_keyword u_white u_alpha u_num).
Notation match_any := (match_any u_white u_alpha u_num).
Notation skip_statement_m := (skip_statement_m u_white).
Notation skip_statement := (skip_statement u_white).
Notation skip_one_token := (skip_one_token u_alpha u_num).
Notation expect_char := (expect_char u_white).
Notation value_semi := (value_semi u_white u_alpha u_num).
Notation import_body := (import_body u_white u_alpha u_num).
Notation include_body := (include_body u_white u_alpha u_num).
Notation parse_import := (parse_import u_white u_alpha u_num).
Notation parse_include := (parse_include u_white u_alpha u_num).
Notation parse_loop := (parse_loop u_white u_alpha u_num).
Notation extract_upto := (extract_upto u_white u_alpha u_num).
Notation extract := (extract u_white u_alpha u_num).

Ltac inv H := inversion H; subst; clear H.

Lemma skip_ws_m_len : forall s m s', skip_ws_m m s = Ok s' -> (length s' <= length s)%nat.
Proof.
  intros s. remember (length s) as n eqn:E. revert s E.
  induction n as [n IH] using lt_wf_ind. intros s E m s' H.
  destruct s as [|c r]; cbn [YpModel.skip_ws_m] in H.
  - inv H. cbn. lia.
  - cbn in E.
    assert (IHr : forall m, skip_ws_m m r = Ok s' -> (length s' <= n)%nat).
    { intros m0 H0. assert (length s' <= length r)%nat; [|lia].
      eapply (IH (length r)); [lia|reflexivity|exact H0]. }
    destruct m.
    + destruct (white c); [eauto|].
      destruct r as [|d r'].
      * destruct (c <? 128); inv H. cbn. lia.
      * destruct ((c =? 47) && (d =? 47)); [eauto|].
        destruct ((c =? 47) && (d =? 42)).
        -- assert (length s' <= length r')%nat; [|cbn in E; lia].
           eapply (IH (length r')); [cbn in E; lia|reflexivity|exact H].
        -- inv H. cbn in *. lia.
    + destruct (c =? 10); eauto.
    + destruct r as [|d r'].
      * destruct (c <? 128); inv H. cbn. lia.
      * destruct ((c =? 42) && (d =? 47)); [|eauto].
        assert (length s' <= length r')%nat; [|cbn in E; lia].
        eapply (IH (length r')); [cbn in E; lia|reflexivity|exact H].
Qed.

Lemma skip_ws_len : forall s s', skip_ws s = Ok s' -> (length s' <= length s)%nat.
Proof. intros s s' H. exact (skip_ws_m_len s SpNormal s' H). Qed.

Lemma skip_ws_m_cases : forall s m,
  (exists s', skip_ws_m m s = Ok s') \/ skip_ws_m m s = Panic.
Proof.
  intros s. remember (length s) as n eqn:E. revert s E.
  induction n as [n IH] using lt_wf_ind. intros s E m.
  destruct s as [|c r]; cbn [YpModel.skip_ws_m]; [eauto|].
  cbn in E.
  assert (IHr : forall m, (exists s', skip_ws_m m r = Ok s') \/ skip_ws_m m r = Panic)
    by (intros; eapply (IH (length r)); [lia|reflexivity]).
  destruct m.
  - destruct (white c); [apply IHr|]. destruct r as [|d r'].
    + destruct (c <? 128); eauto.
    + destruct ((c =? 47) && (d =? 47)); [apply IHr|].
      destruct ((c =? 47) && (d =? 42)); [|eauto].
      eapply (IH (length r')); [cbn in E; lia|reflexivity].
  - destruct (c =? 10); apply IHr.
  - destruct r as [|d r'].
    + destruct (c <? 128); eauto.
    + destruct ((c =? 42) && (d =? 47)); [|apply IHr].
      eapply (IH (length r')); [cbn in E; lia|reflexivity].
Qed.
Lemma skip_ws_nodiv : forall s, skip_ws s <> Diverge.
Proof. intros s. unfold YpModel.skip_ws. destruct (skip_ws_m_cases s SpNormal) as [[x ->]| ->]; congruence. Qed.

Lemma skip_ws_nil : skip_ws [] = Ok [].
Proof. reflexivity. Qed.

(* what skip_ws leaves does not start with a blank character *)
Lemma skip_ws_m_white : forall s m c r, skip_ws_m m s = Ok (c :: r) -> white c = false.
Proof.
  intros s. remember (length s) as n eqn:E. revert s E.
  induction n as [n IH] using lt_wf_ind. intros s E m c r H.
  destruct s as [|a t]; cbn [YpModel.skip_ws_m] in H; [discriminate H|].
  cbn in E.
  assert (IHr : forall m, skip_ws_m m t = Ok (c :: r) -> white c = false)
    by (intros m0; eapply (IH (length t)); [lia|reflexivity]).
  destruct m.
  - destruct (white a) eqn:W; [eauto|]. destruct t as [|d r'].
    + destruct (a <? 128); inv H. exact W.
    + destruct ((a =? 47) && (d =? 47)); [eauto|].
      destruct ((a =? 47) && (d =? 42)).
      * eapply (IH (length r')); [cbn in E; lia|reflexivity|exact H].
      * inv H. exact W.
  - destruct (a =? 10); eauto.
  - destruct t as [|d r'].
    + destruct (a <? 128); inv H.
    + destruct ((a =? 42) && (d =? 47)); [|eauto].
      eapply (IH (length r')); [cbn in E; lia|reflexivity|exact H].
Qed.

Lemma span_id_len : forall s a b, span_id s = (a, b) -> (length b <= length s)%nat.
Proof.
  induction s as [|c r IH]; cbn; intros a b H; [inv H; cbn; lia|].
  destruct (id_char u_alpha u_num c).
  - destruct (span_id r) as [a0 b0] eqn:F. inv H. specialize (IH _ _ eq_refl). lia.
  - inv H. cbn. lia.
Qed.
Lemma read_identifier_len : forall s v r,
  read_identifier s = (v, r) -> (length r <= length s)%nat.
Proof.
  intros [|c t] v r H; cbn in H; [inv H; cbn; lia|].
  destruct (id_first u_alpha u_num c).
  - destruct (span_id t) as [a b] eqn:F. inv H. apply span_id_len in F. cbn. lia.
  - inv H. cbn. lia.
Qed.
Lemma dq_body_len : forall s, (length (snd (dq_body s)) <= length s)%nat.
Proof.
  intros s. remember (length s) as n eqn:E. revert s E.
  induction n as [n IH] using lt_wf_ind. intros s E.
  destruct s as [|c r]; cbn; [lia|]. cbn in E.
  destruct (c =? 34); [cbn; lia|]. destruct (c =? 92).
  - destruct r as [|e r']; [cbn; lia|].
    destruct (dq_body r') as [v rest] eqn:F. cbn.
    specialize (IH (length r') ltac:(cbn in E; lia) r' eq_refl). rewrite F in IH. cbn in IH, E. lia.
  - destruct (dq_body r) as [v rest] eqn:F. cbn.
    specialize (IH (length r) ltac:(lia) r eq_refl). rewrite F in IH. cbn in IH. lia.
Qed.
Lemma sq_body_len : forall s, (length (snd (sq_body s)) <= length s)%nat.
Proof.
  induction s as [|c r IH]; cbn; [lia|].
  destruct (c =? 39); [cbn; lia|].
  destruct (sq_body r) as [v rest]. cbn in *. lia.
Qed.

Lemma concat_loop_len : forall f acc s v r,
  concat_loop f acc s = Ok (v, r) -> (length r <= length s)%nat.
Proof.
  induction f as [|f IH]; intros acc s v r H; cbn [YpModel.concat_loop] in H; [discriminate H|].
  destruct (skip_ws s) as [s1| | |] eqn:E1; try discriminate H. cbn [rbind] in H.
  apply skip_ws_len in E1.
  destruct s1 as [|c r1]; [inv H; cbn; lia|].
  destruct (c =? 43); [|inv H; lia].
  destruct (skip_ws r1) as [s2| | |] eqn:E2; try discriminate H. cbn [rbind] in H.
  apply skip_ws_len in E2. cbn in E1.
  destruct s2 as [|q r2]; [inv H; cbn; lia|]. cbn in E2.
  destruct (q =? 34).
  - pose proof (dq_body_len r2) as L. destruct (dq_body r2) as [w rest]. cbn in L.
    apply IH in H. lia.
  - destruct (q =? 39).
    + pose proof (sq_body_len r2) as L. destruct (sq_body r2) as [w rest]. cbn in L.
      apply IH in H. lia.
    + inv H. cbn. lia.
Qed.
Lemma concat_loop_nodiv : forall f acc s,
  (length s < f)%nat -> concat_loop f acc s <> Diverge.
Proof.
  induction f as [|f IH]; intros acc s L; cbn [YpModel.concat_loop]; [lia|].
  destruct (skip_ws s) as [s1| | |] eqn:E1; cbn [rbind]; try congruence;
    [|intros _; exact (skip_ws_nodiv _ E1)].
  apply skip_ws_len in E1.
  destruct s1 as [|c r1]; [congruence|].
  destruct (c =? 43); [|congruence].
  destruct (skip_ws r1) as [s2| | |] eqn:E2; cbn [rbind]; try congruence;
    [|intros _; exact (skip_ws_nodiv _ E2)].
  apply skip_ws_len in E2. cbn in E1.
  destruct s2 as [|q r2]; [congruence|]. cbn in E2.
  destruct (q =? 34).
  - pose proof (dq_body_len r2) as Q. destruct (dq_body r2) as [w rest]. cbn in Q.
    apply IH. lia.
  - destruct (q =? 39); [|congruence].
    pose proof (sq_body_len r2) as Q. destruct (sq_body r2) as [w rest]. cbn in Q.
    apply IH. lia.
Qed.

Lemma read_value_len : forall s v r,
  read_value s = Ok (v, r) -> (length r <= length s)%nat.
Proof.
  intros s v r H. unfold YpModel.read_value in H.
  destruct (skip_ws s) as [s1| | |] eqn:E1; try discriminate H. cbn [rbind] in H.
  apply skip_ws_len in E1.
  destruct s1 as [|c t]; [inv H; cbn; lia|]. cbn in E1.
  destruct ((c =? 34) || (c =? 39)).
  - assert (L : (length (snd (if (c =? 34)%N then dq_body t else sq_body t)) <= length t)%nat)
      by (destruct (c =? 34); [apply dq_body_len|apply sq_body_len]).
    destruct (if c =? 34 then dq_body t else sq_body t) as [w rest]. cbn in L.
    destruct w as [w|]; [|inv H; lia].
    destruct (concat_loop (S (length rest)) w rest) as [[x y]| | |] eqn:F; try discriminate H.
    cbn in H. inv H. apply concat_loop_len in F. lia.
  - assert (R : read_identifier (c :: t) = (v, r)) by congruence.
    apply read_identifier_len in R. cbn in R. lia.
Qed.
Lemma read_value_nodiv : forall s, read_value s <> Diverge.
Proof.
  intros s. unfold YpModel.read_value.
  destruct (skip_ws s) as [s1| | |] eqn:E1; cbn [rbind]; try congruence;
    [|intros _; exact (skip_ws_nodiv _ E1)].
  destruct s1 as [|c t]; [congruence|].
  destruct ((c =? 34) || (c =? 39)); [|congruence].
  destruct (if c =? 34 then dq_body t else sq_body t) as [[w|] rest]; [|congruence].
  destruct (concat_loop (S (length rest)) w rest) as [[x y]| | |] eqn:F; cbn; try congruence.
  intros _. apply (concat_loop_nodiv (S (length rest)) w rest); [lia|exact F].
Qed.

Lemma id_run_nodiv : forall s, id_run u_alpha u_num s <> Diverge.
Proof.
  induction s as [|c r IH]; cbn; [congruence|].
  destruct (utf8 c); [congruence|].
  destruct (negb _); [congruence|]. destruct (forallb _ _); [|congruence].
  destruct (id_run u_alpha u_num r); cbn; congruence.
Qed.
Lemma match_keyword_len : forall k s r,
  match_keyword k s = Ok (Some r) -> k <> [] -> (length r < length s)%nat.
Proof.
  intros k s r H K. unfold YpModel.match_keyword in H.
  destruct (peek_identifier s) as [[id|]| | |] eqn:P; try discriminate H. cbn [rbind] in H.
  destruct s as [|c t]; [discriminate P|].
  destruct (text_eqb id k); [|discriminate H].
  assert (L : r = skipn (length k) (c :: t)).
  { destruct (skipn (length k) (c :: t)) as [|x y]; [inv H; reflexivity|].
    destruct (kw_delim u_white x); inv H; reflexivity. }
  rewrite L, skipn_length. destruct k; [congruence|]. cbn. lia.
Qed.
Lemma match_keyword_nodiv : forall k s, match_keyword k s <> Diverge.
Proof.
  intros k s. unfold YpModel.match_keyword.
  destruct (peek_identifier s) as [[id|]| | |] eqn:P; cbn [rbind]; try congruence.
  - destruct (text_eqb id k); [|congruence].
    destruct (skipn (length k) s) as [|x y]; [congruence|].
    destruct (kw_delim u_white x); congruence.
  - intros _. destruct s as [|c t]; cbn in P; [congruence|].
    destruct (utf8 c); [congruence|]. destruct (_ || _); [|congruence].
    destruct (forallb _ _); [|congruence].
    pose proof (id_run_nodiv t). destruct (id_run u_alpha u_num t); cbn in P; congruence.
Qed.
Lemma match_any_nodiv : forall l s, match_any l s <> Diverge.
Proof.
  induction l as [|k l IH]; intros s; cbn [YpModel.match_any]; [congruence|].
  pose proof (match_keyword_nodiv k s).
  destruct (match_keyword k s) as [[x|]| | |]; cbn [rbind]; try congruence; apply IH.
Qed.
Lemma match_keyword_nil : forall k, match_keyword k [] = Ok None.
Proof. reflexivity. Qed.

Lemma skip_statement_m_len : forall s m d s',
  skip_statement_m m d s = Ok s' -> (length s' <= length s)%nat.
Proof.
  intros s. remember (length s) as n eqn:E. revert s E.
  induction n as [n IH] using lt_wf_ind. intros s E m d s' H.
  destruct s as [|c r]; cbn [YpModel.skip_statement_m] in H; [inv H; cbn; lia|].
  cbn in E.
  assert (IHr : forall m d, skip_statement_m m d r = Ok s' -> (length s' <= n)%nat).
  { intros m0 d0 H0. assert (length s' <= length r)%nat; [|lia].
    eapply (IH (length r)); [lia|reflexivity|exact H0]. }
  destruct m.
  - destruct (white c); [eauto|].
    match type of H with match r with [] => if _ then ?h else _ | _ => _ end = _ =>
      assert (G : h = Ok s' -> (length s' <= n)%nat) end.
    { intros G. destruct ((c =? 34) || (c =? 39)); [eauto|].
      destruct (c =? 123); [eauto|]. destruct (c =? 125).
      - destruct d as [|[|d']]; [inv G; cbn; lia|inv G; lia|eauto].
      - destruct (c =? 59); [|eauto]. destruct d; [inv G; lia|eauto]. }
    destruct r as [|e r'].
    + destruct (c <? 128); [|discriminate H]. apply G. exact H.
    + destruct ((c =? 47) && (e =? 47)); [eauto|].
      destruct ((c =? 47) && (e =? 42)); [|apply G; exact H].
      assert (length s' <= length r')%nat; [|cbn in E; lia].
      eapply (IH (length r')); [cbn in E; lia|reflexivity|exact H].
  - destruct (c =? 10); eauto.
  - destruct r as [|e r'].
    + destruct (c <? 128); inv H. cbn. lia.
    + destruct ((c =? 42) && (e =? 47)); [|eauto].
      assert (length s' <= length r')%nat; [|cbn in E; lia].
      eapply (IH (length r')); [cbn in E; lia|reflexivity|exact H].
  - destruct ((c =? q) && negb (p =? 92)); eauto.
Qed.
Lemma skip_statement_lt : forall c r s',
  skip_statement (c :: r) = Ok s' -> c <> 125 -> (length s' <= length r)%nat.
Proof.
  intros c r s' H C. unfold YpModel.skip_statement in H. cbn [YpModel.skip_statement_m] in H.
  destruct (white c); [eapply skip_statement_m_len; exact H|].
  apply N.eqb_neq in C. rewrite C in H.
  match type of H with match r with [] => if _ then ?h else _ | _ => _ end = _ =>
    assert (G : h = Ok s' -> (length s' <= length r)%nat) end.
  { intros G. destruct ((c =? 34) || (c =? 39)); [eapply skip_statement_m_len; exact G|].
    destruct (c =? 123); [eapply skip_statement_m_len; exact G|].
    destruct (c =? 59); [inv G; lia|eapply skip_statement_m_len; exact G]. }
  destruct r as [|e r'].
  - destruct (c <? 128); [|discriminate H]. apply G. exact H.
  - destruct ((c =? 47) && (e =? 47)); [eapply skip_statement_m_len; exact H|].
    destruct ((c =? 47) && (e =? 42)); [|apply G; exact H].
    apply skip_statement_m_len in H. cbn. lia.
Qed.
Lemma skip_statement_m_nodiv : forall s m d, skip_statement_m m d s <> Diverge.
Proof.
  intros s. remember (length s) as n eqn:E. revert s E.
  induction n as [n IH] using lt_wf_ind. intros s E m d.
  destruct s as [|c r]; cbn [YpModel.skip_statement_m]; [congruence|].
  cbn in E.
  assert (IHr : forall m d, skip_statement_m m d r <> Diverge)
    by (intros; eapply (IH (length r)); [lia|reflexivity]).
  destruct m.
  - destruct (white c); [apply IHr|].
    match goal with |- match r with [] => if _ then ?h else _ | _ => _ end <> _ =>
      assert (G : h <> Diverge) end.
    { destruct ((c =? 34) || (c =? 39)); [apply IHr|].
      destruct (c =? 123); [apply IHr|]. destruct (c =? 125).
      - destruct d as [|[|d']]; [congruence|congruence|apply IHr].
      - destruct (c =? 59); [|apply IHr]. destruct d; [congruence|apply IHr]. }
    destruct r as [|e r'].
    + destruct (c <? 128); [exact G|congruence].
    + destruct ((c =? 47) && (e =? 47)); [apply IHr|].
      destruct ((c =? 47) && (e =? 42)); [|exact G].
      eapply (IH (length r')); [cbn in E; lia|reflexivity].
  - destruct (c =? 10); apply IHr.
  - destruct r as [|e r'].
    + destruct (c <? 128); congruence.
    + destruct ((c =? 42) && (e =? 47)); [|apply IHr].
      eapply (IH (length r')); [cbn in E; lia|reflexivity].
  - destruct ((c =? q) && negb (p =? 92)); apply IHr.
Qed.

Lemma value_semi_len : forall e s v r,
  value_semi e s = Ok (v, r) -> (length r <= length s)%nat.
Proof.
  intros e s v r H. unfold YpModel.value_semi in H.
  destruct (skip_ws s) as [s1| | |] eqn:E1; try discriminate H. cbn [rbind] in H.
  destruct (read_value s1) as [[w x]| | |] eqn:E2; try discriminate H. cbn [rbind fst snd] in H.
  destruct w as [w|]; [|discriminate H].
  destruct (skip_ws x) as [s2| | |] eqn:E3; try discriminate H. cbn [rbind] in H.
  destruct (expect_char 59 s2) as [s3| | |] eqn:E4; try discriminate H. cbn [rbind] in H.
  inv H. unfold YpModel.expect_char in E4.
  destruct (skip_ws s2) as [s4| | |] eqn:E5; try discriminate E4. cbn [rbind] in E4.
  apply skip_ws_len in E1. apply read_value_len in E2. apply skip_ws_len in E3.
  apply skip_ws_len in E5.
  destruct s4 as [|d t]; [discriminate E4|]. destruct (d =? 59); inv E4. cbn in E5. lia.
Qed.

(* ---- the loops ---- *)
Lemma import_body_eof : forall k p v, import_body k p v [] = Diverge.
Proof.
  induction k as [|k IH]; intros p v; [reflexivity|].
  cbn [YpModel.import_body]. rewrite skip_ws_nil. cbn [rbind closing].
  rewrite !match_keyword_nil. cbn [rbind]. unfold YpModel.skip_statement.
  cbn [YpModel.skip_statement_m rbind]. apply IH.
Qed.
Lemma include_body_eof : forall k v, include_body k v [] = Diverge.
Proof.
  induction k as [|k IH]; intros v; [reflexivity|].
  cbn [YpModel.include_body]. rewrite skip_ws_nil. cbn [rbind closing].
  rewrite !match_keyword_nil. cbn [rbind]. unfold YpModel.skip_statement.
  cbn [YpModel.skip_statement_m rbind]. apply IH.
Qed.

Lemma kw_len : forall k s r (a : Ascii.ascii) x, k = chars (String.String a x) ->
  match_keyword k s = Ok (Some r) -> (length r < length s)%nat.
Proof. intros k s r a x -> H. eapply match_keyword_len; [exact H|discriminate]. Qed.

Lemma import_body_fuel : forall n p v s k,
  (length s < n)%nat -> import_body (n + k) p v s = import_body n p v s.
Proof.
  induction n as [|n IH]; intros p v s k L; [lia|].
  cbn [Nat.add YpModel.import_body].
  destruct (skip_ws s) as [s1| | |] eqn:E1; cbn [rbind]; try reflexivity.
  apply skip_ws_len in E1.
  destruct (closing s1) as [r|] eqn:C; [reflexivity|].
  destruct (match_keyword (chars "prefix") s1) as [[s2|]| | |] eqn:M1; cbn [rbind]; try reflexivity.
  - eapply kw_len in M1; [|reflexivity].
    destruct (value_semi ExpectedPrefix s2) as [[w x]| | |] eqn:V; cbn [rbind fst snd]; try reflexivity.
    apply value_semi_len in V. apply IH. lia.
  - destruct (match_keyword (chars "revision-date") s1) as [[s2|]| | |] eqn:M2; cbn [rbind]; try reflexivity.
    + eapply kw_len in M2; [|reflexivity].
      destruct (value_semi ExpectedRevision s2) as [[w x]| | |] eqn:V; cbn [rbind fst snd]; try reflexivity.
      apply value_semi_len in V. apply IH. lia.
    + destruct (skip_statement s1) as [s2| | |] eqn:K; cbn [rbind]; try reflexivity.
      destruct s1 as [|c r].
      * cbn in K. inv K. rewrite !import_body_eof. reflexivity.
      * assert (c <> 125) by (intros ->; discriminate C).
        apply skip_statement_lt in K; [|assumption]. cbn in E1. apply IH. lia.
Qed.
Lemma include_body_fuel : forall n v s k,
  (length s < n)%nat -> include_body (n + k) v s = include_body n v s.
Proof.
  induction n as [|n IH]; intros v s k L; [lia|].
  cbn [Nat.add YpModel.include_body].
  destruct (skip_ws s) as [s1| | |] eqn:E1; cbn [rbind]; try reflexivity.
  apply skip_ws_len in E1.
  destruct (closing s1) as [r|] eqn:C; [reflexivity|].
  destruct (match_keyword (chars "revision-date") s1) as [[s2|]| | |] eqn:M2; cbn [rbind]; try reflexivity.
  - eapply kw_len in M2; [|reflexivity].
    destruct (value_semi ExpectedRevision s2) as [[w x]| | |] eqn:V; cbn [rbind fst snd]; try reflexivity.
    apply value_semi_len in V. apply IH. lia.
  - destruct (skip_statement s1) as [s2| | |] eqn:K; cbn [rbind]; try reflexivity.
    destruct s1 as [|c r].
    + cbn in K. inv K. rewrite !include_body_eof. reflexivity.
    + assert (c <> 125) by (intros ->; discriminate C).
      apply skip_statement_lt in K; [|assumption]. cbn in E1. apply IH. lia.
Qed.

Lemma closing_len : forall s r, closing s = Some r -> (length r < length s)%nat.
Proof. intros [|c s] r H; [discriminate H|]. cbn in H. destruct (c =? 125); inv H. cbn. lia. Qed.
Lemma import_body_len : forall n p v s a b r,
  import_body n p v s = Ok (a, b, r) -> (length r <= length s)%nat.
Proof.
  induction n as [|n IH]; intros p v s a b r H; [discriminate H|].
  cbn [YpModel.import_body] in H.
  destruct (skip_ws s) as [s1| | |] eqn:E1; cbn [rbind] in H; try discriminate H.
  apply skip_ws_len in E1.
  destruct (closing s1) as [r1|] eqn:C.
  { inv H. apply closing_len in C. lia. }
  destruct (match_keyword (chars "prefix") s1) as [[s2|]| | |] eqn:M1; cbn [rbind] in H; try discriminate H.
  - eapply kw_len in M1; [|reflexivity].
    destruct (value_semi ExpectedPrefix s2) as [[w x]| | |] eqn:V; cbn [rbind fst snd] in H; try discriminate H.
    apply value_semi_len in V. apply IH in H. lia.
  - destruct (match_keyword (chars "revision-date") s1) as [[s2|]| | |] eqn:M2; cbn [rbind] in H; try discriminate H.
    + eapply kw_len in M2; [|reflexivity].
      destruct (value_semi ExpectedRevision s2) as [[w x]| | |] eqn:V; cbn [rbind fst snd] in H; try discriminate H.
      apply value_semi_len in V. apply IH in H. lia.
    + destruct (skip_statement s1) as [s2| | |] eqn:K; cbn [rbind] in H; try discriminate H.
      apply skip_statement_m_len in K. apply IH in H. lia.
Qed.
Lemma include_body_len : forall n v s b r,
  include_body n v s = Ok (b, r) -> (length r <= length s)%nat.
Proof.
  induction n as [|n IH]; intros v s b r H; [discriminate H|].
  cbn [YpModel.include_body] in H.
  destruct (skip_ws s) as [s1| | |] eqn:E1; cbn [rbind] in H; try discriminate H.
  apply skip_ws_len in E1.
  destruct (closing s1) as [r1|] eqn:C.
  { inv H. apply closing_len in C. lia. }
  destruct (match_keyword (chars "revision-date") s1) as [[s2|]| | |] eqn:M2; cbn [rbind] in H; try discriminate H.
  - eapply kw_len in M2; [|reflexivity].
    destruct (value_semi ExpectedRevision s2) as [[w x]| | |] eqn:V; cbn [rbind fst snd] in H; try discriminate H.
    apply value_semi_len in V. apply IH in H. lia.
  - destruct (skip_statement s1) as [s2| | |] eqn:K; cbn [rbind] in H; try discriminate H.
    apply skip_statement_m_len in K. apply IH in H. lia.
Qed.

Lemma expect_char_len : forall c s r, expect_char c s = Ok r -> (length r < length s)%nat.
Proof.
  intros c s r H. unfold YpModel.expect_char in H.
  destruct (skip_ws s) as [s1| | |] eqn:E1; cbn [rbind] in H; try discriminate H.
  apply skip_ws_len in E1. destruct s1 as [|d t]; [discriminate H|].
  destruct (d =? c); inv H. cbn in E1. lia.
Qed.

Lemma parse_import_len : forall b s x r,
  parse_import b s = Ok (x, r) -> (length r <= length s)%nat.
Proof.
  intros b s x r H. unfold YpModel.parse_import in H.
  destruct (skip_ws s) as [s1| | |] eqn:E1; cbn [rbind] in H; try discriminate H.
  destruct (read_value s1) as [[w y]| | |] eqn:E2; cbn [rbind fst snd] in H; try discriminate H.
  destruct w as [w|]; [|discriminate H].
  destruct (skip_ws y) as [s2| | |] eqn:E3; cbn [rbind] in H; try discriminate H.
  destruct (expect_char 123 s2) as [s3| | |] eqn:E4; cbn [rbind] in H; try discriminate H.
  destruct (import_body b None None s3) as [[[p v] t]| | |] eqn:E5; cbn [rbind] in H; try discriminate H.
  destruct p; inv H.
  apply skip_ws_len in E1. apply read_value_len in E2. apply skip_ws_len in E3.
  apply expect_char_len in E4. apply import_body_len in E5. lia.
Qed.
Lemma parse_include_len : forall b s x r,
  parse_include b s = Ok (x, r) -> (length r <= length s)%nat.
Proof.
  intros b s x r H. unfold YpModel.parse_include in H.
  destruct (skip_ws s) as [s1| | |] eqn:E1; cbn [rbind] in H; try discriminate H.
  destruct (read_value s1) as [[w y]| | |] eqn:E2; cbn [rbind fst snd] in H; try discriminate H.
  destruct w as [w|]; [|discriminate H].
  destruct (skip_ws y) as [s2| | |] eqn:E3; cbn [rbind] in H; try discriminate H.
  apply skip_ws_len in E1. apply read_value_len in E2. apply skip_ws_len in E3.
  destruct s2 as [|c t]; [discriminate H|]. cbn in E3.
  destruct (c =? 59); [inv H; lia|]. destruct (c =? 123); [|discriminate H].
  destruct (include_body b None t) as [[p q]| | |] eqn:E5; cbn [rbind] in H; try discriminate H.
  inv H. apply include_body_len in E5. cbn. lia.
Qed.
Lemma parse_import_fuel : forall b s k,
  (length s < b)%nat -> parse_import (b + k) s = parse_import b s.
Proof.
  intros b s k L. unfold YpModel.parse_import.
  destruct (skip_ws s) as [s1| | |] eqn:E1; cbn [rbind]; try reflexivity.
  destruct (read_value s1) as [[w y]| | |] eqn:E2; cbn [rbind fst snd]; try reflexivity.
  destruct w as [w|]; [|reflexivity].
  destruct (skip_ws y) as [s2| | |] eqn:E3; cbn [rbind]; try reflexivity.
  destruct (expect_char 123 s2) as [s3| | |] eqn:E4; cbn [rbind]; try reflexivity.
  apply skip_ws_len in E1. apply read_value_len in E2. apply skip_ws_len in E3.
  apply expect_char_len in E4. rewrite import_body_fuel by lia. reflexivity.
Qed.
Lemma parse_include_fuel : forall b s k,
  (length s < b)%nat -> parse_include (b + k) s = parse_include b s.
Proof.
  intros b s k L. unfold YpModel.parse_include.
  destruct (skip_ws s) as [s1| | |] eqn:E1; cbn [rbind]; try reflexivity.
  destruct (read_value s1) as [[w y]| | |] eqn:E2; cbn [rbind fst snd]; try reflexivity.
  destruct w as [w|]; [|reflexivity].
  destruct (skip_ws y) as [s2| | |] eqn:E3; cbn [rbind]; try reflexivity.
  apply skip_ws_len in E1. apply read_value_len in E2. apply skip_ws_len in E3.
  destruct s2 as [|c t]; [reflexivity|]. cbn in E3.
  destruct (c =? 59); [reflexivity|]. destruct (c =? 123); [|reflexivity].
  rewrite include_body_fuel by lia. reflexivity.
Qed.

Lemma skip_one_token_lt : forall c r, (length (skip_one_token (c :: r)) <= length r)%nat.
Proof.
  intros c r. unfold YpModel.skip_one_token.
  destruct (c =? 34); [apply dq_body_len|]. destruct (c =? 39); [apply sq_body_len|].
  destruct (alpha c || (c =? 95)) eqn:A; [|lia].
  cbn [YpModel.read_identifier]. unfold id_first.
  replace (alpha c || (c =? 95) || numeric u_num c) with true by (rewrite A; reflexivity).
  destruct (span_id r) as [a b] eqn:F. apply span_id_len in F. exact F.
Qed.

Lemma parse_loop_fuel : forall n b acc s k j,
  (length s < n)%nat -> (length s < b)%nat ->
  parse_loop (n + k) (b + j) acc s = parse_loop n b acc s.
Proof.
  induction n as [|n IH]; intros b acc s k j L B; [lia|].
  cbn [Nat.add YpModel.parse_loop].
  destruct s as [|c0 s0]; [reflexivity|]. remember (c0 :: s0) as s eqn:Es. clear Es.
  destruct (skip_ws s) as [s1| | |] eqn:E1; cbn [rbind]; try reflexivity.
  apply skip_ws_len in E1.
  destruct s1 as [|c r]; [reflexivity|].
  destruct (match_keyword (chars "import") (c :: r)) as [[s2|]| | |] eqn:M1; cbn [rbind]; try reflexivity.
  - eapply kw_len in M1; [|reflexivity]. rewrite parse_import_fuel by lia.
    destruct (parse_import b s2) as [[x t]| | |] eqn:P; cbn [rbind fst snd]; try reflexivity.
    apply parse_import_len in P. apply IH; lia.
  - destruct (match_keyword (chars "include") (c :: r)) as [[s2|]| | |] eqn:M2; cbn [rbind]; try reflexivity.
    + eapply kw_len in M2; [|reflexivity]. rewrite parse_include_fuel by lia.
      destruct (parse_include b s2) as [[x t]| | |] eqn:P; cbn [rbind fst snd]; try reflexivity.
      apply parse_include_len in P. apply IH; lia.
    + destruct (match_any meta_words (c :: r)) as [[|]| | |]; cbn [rbind]; try reflexivity.
      pose proof (skip_one_token_lt c r). cbn in E1. apply IH; lia.
Qed.

Lemma extract_enough : forall t n, (length t < n)%nat -> extract_upto n t = extract t.
Proof.
  intros t n L. unfold YpModel.extract, YpModel.extract_upto.
  replace n with (S (length t) + (n - S (length t)))%nat by lia.
  apply parse_loop_fuel; lia.
Qed.
End U.
