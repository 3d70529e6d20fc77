(* The scanner never panics on an ASCII text. *)
From Coq Require Import String.
From Verif Require Import Base YpModel YpSpec.

Section U.
Variable u_white u_alpha u_num : N -> bool.
Notation white := (white u_white).
Notation alpha := (alpha u_alpha).
Notation skip_ws_m := (skip_ws_m u_white).
Notation skip_ws := (skip_ws u_white).
Notation id_run := (id_run u_alpha u_num).
Notation span_id := (span_id u_alpha u_num).
Notation read_identifier := (read_identifier u_alpha u_num).
Notation concat_loop := (concat_loop u_white).
Notation read_value := (read_value u_white u_alpha u_num).
Notation peek_identifier := (peek_identifier u_alpha u_num).
Notation match_keyword := (match_keyword u_white u_alpha u_num).
Notation match_any := (match_any u_white u_alpha u_num).
Notation skip_statement_m := (skip_statement_m u_white).
Notation skip_statement := (skip_statement u_white).
Notation skip_one_token := (skip_one_token u_alpha u_num).
Notation expect_char := (expect_char u_white).
Notation value_semi := (value_semi u_white u_alpha u_num).
Notation import_body := (import_body u_white u_alpha u_num).
Notation include_body := (include_body u_white u_alpha u_num).
Notation parse_import := (parse_import u_white u_alpha u_num).
Notation parse_include := (parse_include u_white u_alpha u_num).
Notation parse_loop := (parse_loop u_white u_alpha u_num).
Notation extract_upto := (extract_upto u_white u_alpha u_num).

Ltac inv H := inversion H; subst; clear H.

(* good P x: no panic, and a value satisfies P *)
Definition good {A} (P : A -> Prop) (x : yres A) : Prop :=
  match x with Ok a => P a | Err _ => True | Panic => False | Diverge => True end.
Lemma good_bind : forall A B (P : A -> Prop) (Q : B -> Prop) x (f : A -> yres B),
  good P x -> (forall a, P a -> good Q (f a)) -> good Q (rbind x f).
Proof. intros A B P Q [a|e| |] f H K; cbn in *; auto. Qed.

Lemma ascii_nil : ascii [].
Proof. intros c []. Qed.
Lemma ascii_cons : forall c r, ascii (c :: r) -> c < 128 /\ ascii r.
Proof. intros c r H. split; [apply H; left; reflexivity|]. intros x I. apply H. right. exact I. Qed.
Lemma ascii_lt : forall c r, ascii (c :: r) -> (c <? 128) = true.
Proof. intros c r H. apply N.ltb_lt. exact (proj1 (ascii_cons c r H)). Qed.
Lemma ascii_tl : forall c r, ascii (c :: r) -> ascii r.
Proof. intros c r H. exact (proj2 (ascii_cons c r H)). Qed.

Lemma skip_ws_m_good : forall s m, ascii s -> good ascii (skip_ws_m m s).
Proof.
  intros s. remember (length s) as n eqn:E. revert s E.
  induction n as [n IH] using lt_wf_ind. intros s E m A.
  destruct s as [|c r]; cbn [YpModel.skip_ws_m]; [exact A|].
  cbn in E. pose proof (ascii_lt _ _ A) as C. pose proof (ascii_tl _ _ A) as T.
  assert (IHr : forall m, good ascii (skip_ws_m m r))
    by (intros; eapply (IH (length r)); [lia|reflexivity|exact T]).
  destruct m.
  - destruct (white c); [apply IHr|]. destruct r as [|d r'].
    + rewrite C. exact A.
    + destruct ((c =? 47) && (d =? 47)); [apply IHr|].
      destruct ((c =? 47) && (d =? 42)); [|exact A].
      eapply (IH (length r')); [cbn in E; lia|reflexivity|exact (ascii_tl _ _ T)].
  - destruct (c =? 10); apply IHr.
  - destruct r as [|d r'].
    + rewrite C. apply ascii_nil.
    + destruct ((c =? 42) && (d =? 47)); [|apply IHr].
      eapply (IH (length r')); [cbn in E; lia|reflexivity|exact (ascii_tl _ _ T)].
Qed.
Lemma skip_ws_good : forall s, ascii s -> good ascii (skip_ws s).
Proof. intros. apply skip_ws_m_good. assumption. Qed.

Lemma span_id_ascii : forall s, ascii s -> ascii (snd (span_id s)).
Proof.
  induction s as [|c r IH]; cbn; intros A; [exact A|].
  destruct (id_char u_alpha u_num c); [|exact A].
  specialize (IH (ascii_tl _ _ A)). destruct (span_id r) as [a b]. exact IH.
Qed.
Lemma read_identifier_ascii : forall s, ascii s -> ascii (snd (read_identifier s)).
Proof.
  intros [|c r] A; cbn; [exact A|]. destruct (id_first u_alpha u_num c); [|exact A].
  pose proof (span_id_ascii r (ascii_tl _ _ A)) as H. destruct (span_id r) as [a b]. exact H.
Qed.
Lemma dq_body_ascii : forall s, ascii s -> ascii (snd (dq_body s)).
Proof.
  intros s. remember (length s) as n eqn:E. revert s E.
  induction n as [n IH] using lt_wf_ind. intros s E A.
  destruct s as [|c r]; cbn; [exact A|]. cbn in E. pose proof (ascii_tl _ _ A) as T.
  destruct (c =? 34); [exact T|]. destruct (c =? 92).
  - destruct r as [|e r']; [exact T|].
    specialize (IH (length r') ltac:(cbn in E; lia) r' eq_refl (ascii_tl _ _ T)).
    destruct (dq_body r') as [v rest]. exact IH.
  - specialize (IH (length r) ltac:(lia) r eq_refl T). destruct (dq_body r) as [v rest]. exact IH.
Qed.
Lemma sq_body_ascii : forall s, ascii s -> ascii (snd (sq_body s)).
Proof.
  induction s as [|c r IH]; cbn; intros A; [exact A|]. pose proof (ascii_tl _ _ A) as T.
  destruct (c =? 39); [exact T|]. specialize (IH T). destruct (sq_body r) as [v rest]. exact IH.
Qed.

Lemma concat_loop_good : forall f acc s, ascii s ->
  good (fun x => ascii (snd x)) (concat_loop f acc s).
Proof.
  induction f as [|f IH]; intros acc s A; cbn [YpModel.concat_loop]; [exact I|].
  eapply good_bind; [exact (skip_ws_good _ A)|]. intros s1 A1.
  destruct s1 as [|c r1]; [exact A1|]. destruct (c =? 43); [|exact A1].
  eapply good_bind; [exact (skip_ws_good _ (ascii_tl _ _ A1))|]. intros s2 A2.
  destruct s2 as [|q r2]; [exact A2|]. pose proof (ascii_tl _ _ A2) as T2.
  destruct (q =? 34).
  - pose proof (dq_body_ascii r2 T2) as L. destruct (dq_body r2) as [w rest]. apply IH, L.
  - destruct (q =? 39); [|exact A2].
    pose proof (sq_body_ascii r2 T2) as L. destruct (sq_body r2) as [w rest]. apply IH, L.
Qed.
Lemma read_value_good : forall s, ascii s -> good (fun x => ascii (snd x)) (read_value s).
Proof.
  intros s A. unfold YpModel.read_value.
  eapply good_bind; [exact (skip_ws_good _ A)|]. intros s1 A1.
  destruct s1 as [|c t]; [exact A1|]. pose proof (ascii_tl _ _ A1) as T.
  destruct ((c =? 34) || (c =? 39)); [|exact (read_identifier_ascii _ A1)].
  assert (L : ascii (snd (if c =? 34 then dq_body t else sq_body t)))
    by (destruct (c =? 34); [apply dq_body_ascii|apply sq_body_ascii]; exact T).
  destruct (if c =? 34 then dq_body t else sq_body t) as [[w|] rest]; [|exact L].
  eapply good_bind; [exact (concat_loop_good _ _ _ L)|]. intros x X. exact X.
Qed.

Lemma id_run_good : forall s, ascii s -> good (fun _ => True) (id_run s).
Proof.
  induction s as [|c r IH]; intros A; cbn [YpModel.id_run]; [exact I|].
  unfold utf8. rewrite (ascii_lt _ _ A). cbn [forallb].
  destruct (negb _); [exact I|].
  eapply good_bind; [exact (IH (ascii_tl _ _ A))|]. intros; exact I.
Qed.
Lemma peek_identifier_good : forall s, ascii s -> good (fun _ => True) (peek_identifier s).
Proof.
  intros [|c r] A; cbn [YpModel.peek_identifier]; [exact I|].
  unfold utf8. rewrite (ascii_lt _ _ A). cbn [forallb].
  destruct (_ || _); [|exact I].
  eapply good_bind; [exact (id_run_good _ (ascii_tl _ _ A))|]. intros; exact I.
Qed.
Lemma ascii_skipn : forall k s, ascii s -> ascii (skipn k s).
Proof.
  induction k as [|k IH]; intros s A; [exact A|]. destruct s as [|c r]; [exact A|].
  cbn. apply IH. exact (ascii_tl _ _ A).
Qed.
Lemma match_keyword_good : forall k s, ascii s ->
  good (fun x => match x with Some r => ascii r | None => True end) (match_keyword k s).
Proof.
  intros k s A. unfold YpModel.match_keyword.
  eapply good_bind; [exact (peek_identifier_good _ A)|]. intros [id|] _; [|exact I].
  destruct (text_eqb id k); [|exact I].
  pose proof (ascii_skipn (length k) s A) as K.
  destruct (skipn (length k) s) as [|c r]; [exact K|].
  destruct (kw_delim u_white c); [exact K|exact I].
Qed.
Lemma match_any_good : forall l s, ascii s -> good (fun _ => True) (match_any l s).
Proof.
  induction l as [|k l IH]; intros s A; cbn [YpModel.match_any]; [exact I|].
  eapply good_bind; [exact (match_keyword_good k s A)|]. intros [x|] _; [exact I|exact (IH s A)].
Qed.

Lemma skip_statement_m_good : forall s m d, ascii s -> good ascii (skip_statement_m m d s).
Proof.
  intros s. remember (length s) as n eqn:E. revert s E.
  induction n as [n IH] using lt_wf_ind. intros s E m d A.
  destruct s as [|c r]; cbn [YpModel.skip_statement_m]; [exact A|].
  cbn in E. pose proof (ascii_lt _ _ A) as C. pose proof (ascii_tl _ _ A) as T.
  assert (IHr : forall m d, good ascii (skip_statement_m m d r))
    by (intros; eapply (IH (length r)); [lia|reflexivity|exact T]).
  destruct m.
  - destruct (white c); [apply IHr|].
    match goal with |- good _ (match r with [] => if _ then ?h else _ | _ => _ end) =>
      assert (G : good ascii h) end.
    { destruct ((c =? 34) || (c =? 39)); [apply IHr|].
      destruct (c =? 123); [apply IHr|]. destruct (c =? 125).
      - destruct d as [|[|d']]; [exact A|exact T|apply IHr].
      - destruct (c =? 59); [|apply IHr]. destruct d; [exact T|apply IHr]. }
    destruct r as [|e r'].
    + rewrite C. exact G.
    + destruct ((c =? 47) && (e =? 47)); [apply IHr|].
      destruct ((c =? 47) && (e =? 42)); [|exact G].
      eapply (IH (length r')); [cbn in E; lia|reflexivity|exact (ascii_tl _ _ T)].
  - destruct (c =? 10); apply IHr.
  - destruct r as [|e r'].
    + rewrite C. apply ascii_nil.
    + destruct ((c =? 42) && (e =? 47)); [|apply IHr].
      eapply (IH (length r')); [cbn in E; lia|reflexivity|exact (ascii_tl _ _ T)].
  - destruct ((c =? q) && negb (p =? 92)); apply IHr.
Qed.

Lemma expect_char_good : forall c s, ascii s -> good ascii (expect_char c s).
Proof.
  intros c s A. unfold YpModel.expect_char.
  eapply good_bind; [exact (skip_ws_good _ A)|]. intros [|d r] A1; [exact I|].
  destruct (d =? c); [exact (ascii_tl _ _ A1)|exact I].
Qed.
Lemma value_semi_good : forall e s, ascii s ->
  good (fun x => ascii (snd x)) (value_semi e s).
Proof.
  intros e s A. unfold YpModel.value_semi.
  eapply good_bind; [exact (skip_ws_good _ A)|]. intros s1 A1.
  eapply good_bind; [exact (read_value_good _ A1)|]. intros [[w|] x] X; cbn [fst snd]; [|exact I].
  eapply good_bind; [exact (skip_ws_good _ X)|]. intros s2 A2.
  eapply good_bind; [exact (expect_char_good _ _ A2)|]. intros s3 A3. exact A3.
Qed.
Lemma closing_ascii : forall s r, ascii s -> closing s = Some r -> ascii r.
Proof.
  intros [|c s] r A H; [discriminate H|]. cbn in H. destruct (c =? 125); inv H.
  exact (ascii_tl _ _ A).
Qed.
Lemma import_body_good : forall n p v s, ascii s ->
  good (fun x => ascii (snd x)) (import_body n p v s).
Proof.
  induction n as [|n IH]; intros p v s A; cbn [YpModel.import_body]; [exact I|].
  eapply good_bind; [exact (skip_ws_good _ A)|]. intros s1 A1.
  destruct (closing s1) as [r|] eqn:C; [exact (closing_ascii _ _ A1 C)|].
  eapply good_bind; [exact (match_keyword_good _ _ A1)|]. intros [s2|] A2.
  - eapply good_bind; [exact (value_semi_good _ _ A2)|]. intros x X. apply IH, X.
  - eapply good_bind; [exact (match_keyword_good _ _ A1)|]. intros [s2|] A3.
    + eapply good_bind; [exact (value_semi_good _ _ A3)|]. intros x X. apply IH, X.
    + eapply good_bind; [exact (skip_statement_m_good s1 StOut O A1)|]. intros x X. apply IH, X.
Qed.
Lemma include_body_good : forall n v s, ascii s ->
  good (fun x => ascii (snd x)) (include_body n v s).
Proof.
  induction n as [|n IH]; intros v s A; cbn [YpModel.include_body]; [exact I|].
  eapply good_bind; [exact (skip_ws_good _ A)|]. intros s1 A1.
  destruct (closing s1) as [r|] eqn:C; [exact (closing_ascii _ _ A1 C)|].
  eapply good_bind; [exact (match_keyword_good _ _ A1)|]. intros [s2|] A3.
  - eapply good_bind; [exact (value_semi_good _ _ A3)|]. intros x X. apply IH, X.
  - eapply good_bind; [exact (skip_statement_m_good s1 StOut O A1)|]. intros x X. apply IH, X.
Qed.
Lemma parse_import_good : forall b s, ascii s -> good (fun x => ascii (snd x)) (parse_import b s).
Proof.
  intros b s A. unfold YpModel.parse_import.
  eapply good_bind; [exact (skip_ws_good _ A)|]. intros s1 A1.
  eapply good_bind; [exact (read_value_good _ A1)|]. intros [[w|] x] X; cbn [fst snd]; [|exact I].
  eapply good_bind; [exact (skip_ws_good _ X)|]. intros s2 A2.
  eapply good_bind; [exact (expect_char_good _ _ A2)|]. intros s3 A3.
  eapply good_bind; [exact (import_body_good _ _ _ _ A3)|]. intros [[[p|] v] r] R; [exact R|exact I].
Qed.
Lemma parse_include_good : forall b s, ascii s -> good (fun x => ascii (snd x)) (parse_include b s).
Proof.
  intros b s A. unfold YpModel.parse_include.
  eapply good_bind; [exact (skip_ws_good _ A)|]. intros s1 A1.
  eapply good_bind; [exact (read_value_good _ A1)|]. intros [[w|] x] X; cbn [fst snd]; [|exact I].
  eapply good_bind; [exact (skip_ws_good _ X)|]. intros [|c r] A2; [exact I|].
  pose proof (ascii_tl _ _ A2) as T.
  destruct (c =? 59); [exact T|]. destruct (c =? 123); [|exact I].
  eapply good_bind; [exact (include_body_good _ _ _ T)|]. intros [p q] Q; exact Q.
Qed.
Lemma skip_one_token_ascii : forall s, ascii s -> ascii (skip_one_token s).
Proof.
  intros [|c r] A; [exact A|]. unfold YpModel.skip_one_token. pose proof (ascii_tl _ _ A) as T.
  destruct (c =? 34); [exact (dq_body_ascii _ T)|].
  destruct (c =? 39); [exact (sq_body_ascii _ T)|].
  destruct (_ || _); [exact (read_identifier_ascii _ A)|exact T].
Qed.
Lemma parse_loop_good : forall n b acc s, ascii s -> good (fun _ => True) (parse_loop n b acc s).
Proof.
  induction n as [|n IH]; intros b acc s A; cbn [YpModel.parse_loop]; [exact I|].
  destruct s as [|c0 s0]; [exact I|]. remember (c0 :: s0) as s eqn:Es. clear Es.
  eapply good_bind; [exact (skip_ws_good _ A)|]. intros [|c r] A1; [exact I|].
  eapply good_bind; [exact (match_keyword_good _ _ A1)|]. intros [s2|] A2.
  - eapply good_bind; [exact (parse_import_good _ _ A2)|]. intros x X. apply IH, X.
  - eapply good_bind; [exact (match_keyword_good _ _ A1)|]. intros [s2|] A3.
    + eapply good_bind; [exact (parse_include_good _ _ A3)|]. intros x X. apply IH, X.
    + eapply good_bind; [exact (match_any_good _ _ A1)|]. intros [|] _; [exact I|].
      apply IH. exact (skip_one_token_ascii _ A1).
Qed.
Lemma extract_ascii : forall n t, ascii t -> extract_upto n t <> Panic.
Proof.
  intros n t A H. pose proof (parse_loop_good n n (mkDeps [] []) t A) as G.
  unfold YpModel.extract_upto in H. rewrite H in G. exact G.
Qed.
End U.
