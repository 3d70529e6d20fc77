(* Lemmas about NETCONF client sessions. *)
From Verif Require Import Base MapLib NcModel NcProofs NsModel NsSpec.

Lemma dec_inj : forall a b, dec a = dec b -> a = b.
Proof. intros a b H. rewrite <- (dec_val_dec a), <- (dec_val_dec b), H. reflexivity. Qed.

Section Session.
Variable send_ok : nat -> bool.
Variable filters_of : list N -> option filters.
Variable sub_of : list N -> option (subscription * bool).
Notation send := (send send_ok).
Notation rpc := (rpc send_ok).
Notation request := (request send_ok).
Notation get_schema := (get_schema send_ok).
Notation get_library := (get_library send_ok).
Notation get_filters := (get_filters send_ok filters_of).
Notation get_sub := (get_sub send_ok filters_of sub_of).
Notation step := (step send_ok filters_of sub_of).
Notation run := (run send_ok filters_of sub_of).
Notation close := (close send_ok).

(* ---- what any operation does to the session ---- *)
Definition ext (s s' : sess) : Prop :=
  (exists l, s_in s = l ++ s_in s') /\ (exists m, s_sent s' = s_sent s ++ m) /\
  s_lib s' = s_lib s /\ s_filters s' = s_filters s.
Lemma ext_refl : forall s, ext s s.
Proof. intros s. repeat split; [exists []; reflexivity|exists []; symmetry; apply app_nil_r]. Qed.
Lemma ext_trans : forall a b c, ext a b -> ext b c -> ext a c.
Proof.
  intros a b c [[l1 A1] [[m1 A2] [A3 A4]]] [[l2 B1] [[m2 B2] [B3 B4]]]. repeat split.
  - exists (l1 ++ l2). rewrite A1, B1, app_assoc. reflexivity.
  - exists (m1 ++ m2). rewrite B2, A2, app_assoc. reflexivity.
  - congruence.
  - congruence.
Qed.
Lemma send_ext : forall i o s s' e, send i o s = (s', e) -> ext s s' /\ s_in s' = s_in s /\ s_errored s' = s_errored s /\ s_next s' = s_next s.
Proof.
  intros i o s s' e H. unfold NsModel.send in H. destruct (send_ok (length (s_sent s))); injection H as <- <-; cbn.
  - repeat split; [exists []; reflexivity|exists [(i, o)]; reflexivity].
  - repeat split; [exists []; reflexivity|exists []; symmetry; apply app_nil_r].
Qed.
Lemma rpc_ext : forall o s s' x, rpc o s = (s', x) -> ext s s' /\ s_in s' = s_in s /\
  forall i, x = inl i -> i = dec (s_next s) /\ In (i, o) (s_sent s').
Proof.
  intros o s s' x H. unfold NsModel.rpc in H. cbn in H. unfold NsModel.send in H. cbn in H.
  destruct (send_ok (length (s_sent s))); injection H as <- <-; cbn.
  - repeat split; [exists []; reflexivity|exists [(dec (s_next s), o)]; reflexivity|congruence|injection H as <-; apply in_or_app; right; left; reflexivity].
  - repeat split; [exists []; reflexivity|exists []; symmetry; apply app_nil_r|discriminate H|discriminate H].
Qed.
Lemma reply_ext : forall s s' x, rpc_reply s = (s', x) -> ext s s' /\ s_sent s' = s_sent s /\ s_next s' = s_next s /\
  forall r, x = inl r -> In (IReply r) (s_in s).
Proof.
  intros s s' x H. unfold rpc_reply in H. destruct (s_errored s).
  - injection H as <- <-. cbn. repeat split; [exists []; reflexivity|exists []; symmetry; apply app_nil_r|discriminate].
  - destruct (s_in s) as [|[r|h c| |] l] eqn:E; injection H as <- <-; unfold ext, with_in; cbn; rewrite ?E.
    + repeat split; [exists []; reflexivity|exists []; symmetry; apply app_nil_r|discriminate].
    + repeat split; [exists [IReply r]; reflexivity|exists []; symmetry; apply app_nil_r|]. intros q Q. injection Q as <-. left. reflexivity.
    + repeat split; [exists [IHello h c]; reflexivity|exists []; symmetry; apply app_nil_r|discriminate].
    + repeat split; [exists [IRpc]; reflexivity|exists []; symmetry; apply app_nil_r|discriminate].
    + repeat split; [exists [IBad]; reflexivity|exists []; symmetry; apply app_nil_r|discriminate].
Qed.
Lemma request_ext : forall o s s' x, request o s = (s', x) -> ext s s' /\
  forall y, x = inl y -> exists r i, In (IReply r) (s_in s) /\ In (i, o) (s_sent s') /\ valid_id i r = true /\ y = responses (rp_content r).
Proof.
  intros o s s' x H. unfold NsModel.request in H. destruct (rpc o s) as [s1 [i|e]] eqn:R; destruct (rpc_ext _ _ _ _ R) as [X1 [X2 X3]];
    [|injection H as <- <-; split; [exact X1|discriminate]].
  destruct (X3 i eq_refl) as [_ I]. destruct (rpc_reply s1) as [s2 [r|e]] eqn:Q; destruct (reply_ext _ _ _ Q) as [Y1 [Y2 [_ Y3]]].
  - destruct (valid_id i r) eqn:V; injection H as <- <-; (split; [exact (ext_trans _ _ _ X1 Y1)|]); [|discriminate].
    intros y E. injection E as <-. exists r, i. rewrite <- X2. split; [exact (Y3 r eq_refl)|]. rewrite Y2. repeat split; assumption.
  - injection H as <- <-. split; [exact (ext_trans _ _ _ X1 Y1)|discriminate].
Qed.

(* ---- right answers ---- *)
Lemma honest_less : forall ans l l' m m', honest ans (l ++ l') (m ++ m') -> honest ans l' m.
Proof. intros ans l l' m m' H r i o A B C. apply (H r i o); [apply in_or_app; right; exact A|exact B|apply in_or_app; left; exact C]. Qed.
Lemma honest_ext : forall ans s s1 s2, ext s s1 -> ext s1 s2 -> honest ans (s_in s) (s_sent s2) ->
  honest ans (s_in s) (s_sent s1) /\ honest ans (s_in s1) (s_sent s2).
Proof.
  intros ans s s1 s2 [[l A] _] [_ [[m B] _]] H. split.
  - rewrite B in H. apply (honest_less ans [] _ _ m). exact H.
  - rewrite A in H. apply (honest_less ans l _ _ []). rewrite app_nil_r. exact H.
Qed.
Lemma named_ext : forall s s1, ext s s1 -> named (s_in s) -> named (s_in s1).
Proof. intros s s1 [[l A] _] H r I. apply H. rewrite A. apply in_or_app. right. exact I. Qed.
Lemma request_right : forall ans o s s' y, request o s = (s', inl y) -> named (s_in s) -> honest ans (s_in s) (s_sent s') ->
  y = responses (ans o).
Proof.
  intros ans o s s' y H N O. destruct (request_ext _ _ _ _ H) as [_ Q]. destruct (Q y eq_refl) as [r [i [A [B [V E]]]]].
  unfold valid_id in V. destruct (rp_id r) as [j|] eqn:J; [|exfalso; exact (N r A J)].
  destruct (bytes_eqb_spec i j) as [->|]; [|discriminate V]. rewrite E, (O r j o A J B). reflexivity.
Qed.
Lemma responses_some : forall c r, responses c = Some r -> exists e, c = CData e r.
Proof. intros [|e r'] r H; [discriminate H|]. injection H as ->. exists e. reflexivity. Qed.

Section Right.
Variable ans : op -> content.
Notation right := (right filters_of sub_of ans).
Notation device_filters := (device_filters filters_of ans).
Lemma filters_right : forall s s' x, s_filters s = None -> get_filters s = (s', x) -> ext s s' /\
  (forall f, x = inl f -> named (s_in s) -> honest ans (s_in s) (s_sent s') -> device_filters f).
Proof.
  intros s s' x F H. unfold NsModel.get_filters in H. rewrite F in H.
  destruct (request OFilters s) as [s1 [y|e]] eqn:R; destruct (request_ext _ _ _ _ R) as [X _].
  - destruct y as [[t|l|d|z]|]; injection H as <- <-; (split; [exact X|]); try discriminate.
    intros f E N O. destruct (filters_of d) as [f'|] eqn:D; [|discriminate E]. injection E as <-.
    pose proof (request_right ans _ _ _ _ R N O) as Q. destruct (responses_some _ _ (eq_sym Q)) as [e Z].
    exists d. split; [exists e; exact Z|exact D].
  - injection H as <- <-. split; [exact X|discriminate].
Qed.
Lemma step_ext : forall s k s' g, s_lib s = None -> s_filters s = None -> step s k = (s', g) -> ext s s' /\
  (named (s_in s) -> honest ans (s_in s) (s_sent s') -> right k g).
Proof.
  intros s k s' g L F H. unfold NsModel.step in H. destruct k as [o| |n v| | |id]; unfold got in H; injection H as <- <-.
  - destruct (rpc o s) as [s1 [i|e]] eqn:R; destruct (rpc_ext _ _ _ _ R) as [X _]; cbn; split; [exact X|intros; exact I|exact X|intros; exact I].
  - destruct (rpc_reply s) as [s1 [i|e]] eqn:R; destruct (reply_ext _ _ _ R) as [X _]; cbn; split; [exact X|intros; exact I|exact X|intros; exact I].
  - unfold NsModel.get_schema. destruct (request (OSchema n v) s) as [s1 [y|e]] eqn:R; destruct (request_ext _ _ _ _ R) as [X _].
    + destruct y as [[t|l|d|z]|]; cbn; (split; [exact X|]); intros N O; try exact I.
      exact (responses_some _ _ (eq_sym (request_right ans _ _ _ _ R N O))).
    + cbn. split; [exact X|intros; exact I].
  - unfold NsModel.get_library. rewrite L. destruct (request OLibrary s) as [s1 [y|e]] eqn:R; destruct (request_ext _ _ _ _ R) as [X _].
    + destruct y as [[t|l|d|z]|]; cbn; (split; [exact X|]); intros N O; try exact I.
      exact (responses_some _ _ (eq_sym (request_right ans _ _ _ _ R N O))).
    + cbn. split; [exact X|intros; exact I].
  - destruct (get_filters s) as [s1 [f|e]] eqn:R; destruct (filters_right _ _ _ F R) as [X Q]; cbn; (split; [exact X|]); intros N O.
    + exact (Q f eq_refl N O).
    + exact I.
  - unfold NsModel.get_sub. destruct (request (OSub id) s) as [s1 [y|e]] eqn:R; destruct (request_ext _ _ _ _ R) as [X _].
    2: { cbn. split; [exact X|intros; exact I]. }
    destruct y as [[t|l|d|z]|]; cbn; try (split; [exact X|intros; exact I]).
    destruct (sub_of d) as [[x c]|] eqn:D; cbn; [|split; [exact X|intros; exact I]].
    destruct (su_sel x) as [n|v|] eqn:S; cbn.
    + assert (F1 : s_filters s1 = None) by (rewrite (proj2 (proj2 (proj2 X))); exact F).
      destruct (get_filters s1) as [s2 [f|e]] eqn:G; destruct (filters_right _ _ _ F1 G) as [Y Q]; cbn; (split; [exact (ext_trans _ _ _ X Y)|]);
        intros N O; [|exact I].
      destruct c; cbn; [|exact I]. destruct (honest_ext _ _ _ _ X Y O) as [O1 O2].
      destruct (responses_some _ _ (eq_sym (request_right ans _ _ _ _ R N O1))) as [e Z].
      exists d, x. split; [exists e; exact Z|]. split; [exact D|]. rewrite S.
      destruct (mget N.eqb n f) as [v|] eqn:M; cbn; (split; [reflexivity|]); exists f;
        (split; [exact (Q f eq_refl (named_ext _ _ X N) O2)|]); rewrite M; (split; [intros w W; congruence|intros W; congruence]).
    + split; [exact X|]. intros N O. destruct c; cbn; [|exact I].
      destruct (responses_some _ _ (eq_sym (request_right ans _ _ _ _ R N O))) as [e Z].
      exists d, x. rewrite S. repeat split; [exists e; exact Z|exact D].
    + split; [exact X|]. intros N O. destruct c; cbn; [|exact I].
      destruct (responses_some _ _ (eq_sym (request_right ans _ _ _ _ R N O))) as [e Z].
      exists d, x. rewrite S. repeat split; [exists e; exact Z|exact D].
Qed.
Lemma run_ext : forall ks s s' gs, s_lib s = None -> s_filters s = None -> run s ks = (s', gs) -> ext s s' /\
  (named (s_in s) -> honest ans (s_in s) (s_sent s') -> Forall2 right ks gs).
Proof.
  induction ks as [|k r IH]; intros s s' gs L F H; cbn in H.
  - injection H as <- <-. split; [apply ext_refl|intros; constructor].
  - destruct (step s k) as [s1 g] eqn:S. destruct (run s1 r) as [s2 os] eqn:R. injection H as <- <-.
    destruct (step_ext _ _ _ _ L F S) as [X Q]. assert (L1 : s_lib s1 = None) by (rewrite (proj1 (proj2 (proj2 X))); exact L).
    assert (F1 : s_filters s1 = None) by (rewrite (proj2 (proj2 (proj2 X))); exact F).
    destruct (IH _ _ _ L1 F1 R) as [Y W]. split; [exact (ext_trans _ _ _ X Y)|]. intros N O.
    destruct (honest_ext _ _ _ _ X Y O) as [O1 O2]. constructor; [exact (Q N O1)|exact (W (named_ext _ _ X N) O2)].
Qed.
End Right.

(* ---- ids ---- *)
Definition fresh (s : sess) : Prop := NoDup (map fst (s_sent s)) /\ forall i, In i (map fst (s_sent s)) -> exists m, i = dec m /\ m < s_next s.
Lemma rpc_fresh : forall o s s' x, fresh s -> s_next s + 1 < 2 ^ 32 -> rpc o s = (s', x) -> fresh s' /\ s_next s' = s_next s + 1.
Proof.
  intros o s s' x [D I] B H. unfold NsModel.rpc, next_id, NsModel.send in H. cbn [s_sent s_next s_lib s_filters s_in s_errored] in H.
  rewrite (N.mod_small _ _ B) in H. destruct (send_ok (length (s_sent s))); injection H as <- <-; unfold fresh; cbn.
  - split; [|reflexivity]. rewrite map_app. cbn. split.
    + apply (Permutation.Permutation_NoDup (Permutation.Permutation_cons_append _ _)). constructor; [|exact D].
      intros J. destruct (I _ J) as [m [E L]]. apply dec_inj in E. lia.
    + intros i J. apply in_app_or in J. destruct J as [J|[<-|[]]].
      * destruct (I i J) as [m [E L]]. exists m. split; [exact E|lia].
      * exists (s_next s). split; [reflexivity|lia].
  - split; [|reflexivity]. split; [exact D|]. intros i J. destruct (I i J) as [m [E L]]. exists m. split; [exact E|lia].
Qed.
Lemma reply_fresh : forall s s' x, fresh s -> rpc_reply s = (s', x) -> fresh s' /\ s_next s' = s_next s.
Proof. intros s s' x F H. destruct (reply_ext _ _ _ H) as [_ [A [B _]]]. unfold fresh. rewrite A, B. split; [exact F|reflexivity]. Qed.
Lemma request_fresh : forall o s s' x, fresh s -> s_next s + 1 < 2 ^ 32 -> request o s = (s', x) -> fresh s' /\ s_next s' = s_next s + 1.
Proof.
  intros o s s' x F B H. unfold NsModel.request in H. destruct (rpc o s) as [s1 [i|e]] eqn:R; destruct (rpc_fresh _ _ _ _ F B R) as [F1 E1];
    [|injection H as <- <-; split; assumption].
  destruct (rpc_reply s1) as [s2 [r|e]] eqn:Q; destruct (reply_fresh _ _ _ F1 Q) as [F2 E2]; rewrite <- E1, <- E2.
  - destruct (valid_id i r); injection H as <- <-; split; [exact F2|reflexivity|exact F2|reflexivity].
  - injection H as <- <-. split; [exact F2|reflexivity].
Qed.
Lemma filters_fresh : forall s s' x, fresh s -> s_next s + 1 < 2 ^ 32 -> get_filters s = (s', x) ->
  fresh s' /\ s_next s <= s_next s' <= s_next s + 1.
Proof.
  intros s s' x F B H. unfold NsModel.get_filters in H. destruct (s_filters s); [injection H as <- <-; split; [exact F|lia]|].
  destruct (request OFilters s) as [s1 [y|e]] eqn:R; destruct (request_fresh _ _ _ _ F B R) as [F1 E1].
  - destruct y as [[t|l|d|z]|]; injection H as <- <-; (split; [exact F1|lia]).
  - injection H as <- <-. split; [exact F1|lia].
Qed.
Lemma step_fresh : forall s k s' g, fresh s -> s_next s + 2 < 2 ^ 32 -> step s k = (s', g) -> fresh s' /\ s_next s' <= s_next s + 2.
Proof.
  intros s k s' g F B H. assert (B1 : s_next s + 1 < 2 ^ 32) by lia.
  unfold NsModel.step in H. destruct k as [o| |n v| | |id]; unfold got in H; injection H as <- <-.
  - destruct (rpc o s) as [s1 x] eqn:R. destruct (rpc_fresh _ _ _ _ F B1 R) as [F1 E1]. cbn. split; [exact F1|lia].
  - destruct (rpc_reply s) as [s1 x] eqn:R. destruct (reply_fresh _ _ _ F R) as [F1 E1]. cbn. split; [exact F1|lia].
  - unfold NsModel.get_schema. destruct (request (OSchema n v) s) as [s1 [y|e]] eqn:R; destruct (request_fresh _ _ _ _ F B1 R) as [F1 E1].
    + destruct y as [[t|l|d|z]|]; cbn; (split; [exact F1|lia]).
    + cbn. split; [exact F1|lia].
  - unfold NsModel.get_library. destruct (s_lib s); [cbn; split; [exact F|lia]|].
    destruct (request OLibrary s) as [s1 [y|e]] eqn:R; destruct (request_fresh _ _ _ _ F B1 R) as [F1 E1].
    + destruct y as [[t|l|d|z]|]; cbn; (split; [exact F1|lia]).
    + cbn. split; [exact F1|lia].
  - destruct (get_filters s) as [s1 x] eqn:R. destruct (filters_fresh _ _ _ F B1 R) as [F1 E1]. cbn. split; [exact F1|lia].
  - unfold NsModel.get_sub. destruct (request (OSub id) s) as [s1 [y|e]] eqn:R; destruct (request_fresh _ _ _ _ F B1 R) as [F1 E1].
    2: { cbn. split; [exact F1|lia]. }
    destruct y as [[t|l|d|z]|]; cbn; try (split; [exact F1|lia]).
    destruct (sub_of d) as [[x c]|]; cbn; [|split; [exact F1|lia]].
    destruct (su_sel x) as [n|v|]; cbn; try (split; [exact F1|lia]).
    destruct (get_filters s1) as [s2 y] eqn:G. assert (B2 : s_next s1 + 1 < 2 ^ 32) by lia.
    destruct (filters_fresh _ _ _ F1 B2 G) as [F2 E2]. destruct y; cbn; (split; [exact F2|lia]).
Qed.
Lemma run_fresh : forall ks s s' gs, fresh s -> s_next s + 2 * N.of_nat (length ks) < 2 ^ 32 -> run s ks = (s', gs) ->
  fresh s' /\ s_next s' <= s_next s + 2 * N.of_nat (length ks).
Proof.
  induction ks as [|k r IH]; intros s s' gs F B H; cbn in H; [injection H as <- <-; split; [exact F|lia]|].
  destruct (step s k) as [s1 g] eqn:S. destruct (run s1 r) as [s2 os] eqn:R. injection H as <- <-. cbn [length] in *.
  assert (B1 : s_next s + 2 < 2 ^ 32) by lia. destruct (step_fresh _ _ _ _ F B1 S) as [F1 E1].
  assert (B2 : s_next s1 + 2 * N.of_nat (length r) < 2 ^ 32) by lia. destruct (IH _ _ _ F1 B2 R) as [F2 E2]. split; [exact F2|lia].
Qed.
Lemma close_fresh : forall s s' e, fresh s -> close s = (s', e) -> NoDup (map fst (s_sent s')).
Proof.
  intros s s' e [D I] H. unfold NsModel.close, NsModel.send in H. destruct (send_ok (length (s_sent s))).
  - match type of H with context [rpc_reply ?x] => destruct (rpc_reply x) as [s2 y] eqn:R end. destruct (reply_ext _ _ _ R) as [_ [E _]]. cbn in E.
    assert (Q : s' = s2) by (destruct y; injection H as <- _; reflexivity). subst. rewrite E, map_app. cbn.
    apply (Permutation.Permutation_NoDup (Permutation.Permutation_cons_append _ _)). constructor; [|exact D].
    intros J. destruct (I _ J) as [m [M L]]. apply dec_inj in M. lia.
  - injection H as <- <-. exact D.
Qed.

(* ---- every send works ---- *)
Hypothesis SO : forall n, send_ok n = true.
Lemma request_now : forall o s, request o s =
  let s1 := Sess ((s_next s + 1) mod 2 ^ 32) (s_lib s) (s_filters s) (s_in s) (s_errored s) (s_sent s ++ [(dec (s_next s), o)]) in
  match rpc_reply s1 with
  | (s2, inr e) => (s2, inr e)
  | (s2, inl r) => if valid_id (dec (s_next s)) r then (s2, inl (responses (rp_content r))) else (s2, inr EUnexpected)
  end.
Proof. intros o s. unfold NsModel.request, NsModel.rpc, next_id, NsModel.send. cbn [s_sent]. rewrite SO. reflexivity. Qed.
Definition idle (s : sess) : Prop := s_lib s = None /\ s_filters s = None /\ s_errored s = false.
(* a call that is one request, on a reply with some id at the head *)
Lemma step_head : forall s k o r l, idle s -> s_next s + 1 < 2 ^ 32 -> asks k = Some o -> s_in s = IReply r :: l ->
  exists g, step s k = (Sess (s_next s + 1) None None l false (s_sent s ++ [(dec (s_next s), o)]), g) /\
    (valid_id (dec (s_next s)) r = false -> failed g) /\
    (valid_id (dec (s_next s)) r = true -> g = match k, responses (rp_content r) with
       | KSchema _ _, Some (RSchema t) => GSchema t
       | KLibrary, Some (RLibrary t) => GLibrary t
       | KFilters, Some (RData d) => match filters_of d with Some f => GFilters f | None => GFail EParse end
       | _, _ => GFail EUnexpected end).
Proof.
  intros s k o r l [L [F E]] B K H.
  assert (RQ : request o s = (Sess (s_next s + 1) None None l false (s_sent s ++ [(dec (s_next s), o)]),
     if valid_id (dec (s_next s)) r then inl (responses (rp_content r)) else inr EUnexpected)).
  { rewrite request_now. cbn zeta. unfold rpc_reply. cbn [s_errored s_in]. rewrite E, H. unfold with_in. cbn.
    rewrite L, F, (N.mod_small _ _ B). destruct (valid_id (dec (s_next s)) r); reflexivity. }
  destruct k as [x| |n v| | |id]; try discriminate K; injection K as <-; unfold NsModel.step.
  - unfold NsModel.get_schema. rewrite RQ. destruct (valid_id (dec (s_next s)) r); unfold got.
    + destruct (responses (rp_content r)) as [[t|t|t|t]|]; (eexists; split; [reflexivity|split; [discriminate|reflexivity]]).
    + eexists. split; [reflexivity|]. split; [intros _; exact I|discriminate].
  - unfold NsModel.get_library. rewrite L, RQ. destruct (valid_id (dec (s_next s)) r); unfold got.
    + destruct (responses (rp_content r)) as [[t|t|t|t]|]; (eexists; split; [reflexivity|split; [discriminate|reflexivity]]).
    + eexists. split; [reflexivity|]. split; [intros _; exact I|discriminate].
  - unfold NsModel.get_filters. rewrite F, RQ. destruct (valid_id (dec (s_next s)) r); unfold got.
    + destruct (responses (rp_content r)) as [[t|t|t|t]|]; try (eexists; split; [reflexivity|split; [discriminate|reflexivity]]).
      cbn. destruct (filters_of t); (eexists; split; [reflexivity|split; [discriminate|reflexivity]]).
    + eexists. split; [reflexivity|]. split; [intros _; exact I|discriminate].
Qed.
(* nothing to read, or not a reply *)
Lemma step_none : forall s k o, s_lib s = None -> s_filters s = None -> asks k = Some o ->
  (s_errored s = true \/ match s_in s with IReply _ :: _ => False | _ => True end) ->
  exists s' g, step s k = (s', g) /\ failed g /\ s_next s' = (s_next s + 1) mod 2 ^ 32 /\ s_lib s' = None /\ s_filters s' = None /\
    s_in s' = (if s_errored s then s_in s else tl (s_in s)) /\
    (s_errored s' = match s_errored s, s_in s with false, IBad :: _ => true | false, [] => s_errored s | _, _ => false end).
Proof.
  intros s k o L F K H.
  assert (RQ : exists s' e, request o s = (s', inr e) /\ s_next s' = (s_next s + 1) mod 2 ^ 32 /\ s_lib s' = None /\ s_filters s' = None /\
    s_in s' = (if s_errored s then s_in s else tl (s_in s)) /\
    (s_errored s' = match s_errored s, s_in s with false, IBad :: _ => true | false, [] => s_errored s | _, _ => false end)).
  { rewrite request_now. cbn zeta. unfold rpc_reply. cbn [s_errored s_in]. destruct (s_errored s) eqn:E.
    - eexists. eexists. unfold with_in. cbn. repeat split; assumption.
    - destruct H as [H|H]; [discriminate H|]. destruct (s_in s) as [|[r|h c| |] l]; try destruct H;
        (eexists; eexists; unfold with_in; cbn; repeat split; try assumption). }
  destruct RQ as [s' [e [RQ R]]]. exists s', (GFail e).
  destruct k as [x| |n v| | |id]; try discriminate K; injection K as <-; unfold NsModel.step.
  - unfold NsModel.get_schema. rewrite RQ. split; [reflexivity|]. split; [exact I|exact R].
  - unfold NsModel.get_library. rewrite L, RQ. split; [reflexivity|]. split; [exact I|exact R].
  - unfold NsModel.get_filters. rewrite F, RQ. split; [reflexivity|]. split; [exact I|exact R].
Qed.
End Session.
Section Counts.
Variable send_ok : nat -> bool.
Variable filters_of : list N -> option filters.
Variable sub_of : list N -> option (subscription * bool).
Hypothesis SO : forall n, send_ok n = true.
Lemma request_sent : forall o s s' x, request send_ok o s = (s', x) -> s_sent s' = s_sent s ++ [(dec (s_next s), o)] /\
  s_lib s' = s_lib s /\ s_filters s' = s_filters s.
Proof.
  intros o s s' x H. rewrite (request_now _ SO) in H. cbn zeta in H.
  match type of H with context [rpc_reply ?y] => destruct (rpc_reply y) as [s2 [r|e]] eqn:R end;
    destruct (reply_ext _ _ _ R) as [[_ [_ [L F]]] [E _]]; cbn in E, L, F.
  - destruct (valid_id (dec (s_next s)) r); injection H as <- <-; auto.
  - injection H as <- <-. auto.
Qed.
Lemma count_app : forall A (p : A -> bool) a b, count p (a ++ b) = (count p a + count p b)%nat.
Proof. intros. unfold count. rewrite filter_app, app_length. reflexivity. Qed.
Lemma filters_sent : forall s s' x, s_filters s = None -> get_filters send_ok filters_of s = (s', x) ->
  s_sent s' = s_sent s ++ [(dec (s_next s), OFilters)] /\ s_lib s' = s_lib s /\ s_filters s' = None.
Proof.
  intros s s' x F H. unfold get_filters in H. rewrite F in H.
  destruct (request send_ok OFilters s) as [s1 [y|e]] eqn:R; destruct (request_sent _ _ _ _ R) as [A [B C]]; rewrite F in C.
  - destruct y as [[t|l|d|z]|]; injection H as <- <-; auto.
  - injection H as <- <-. auto.
Qed.
Lemma step_counts : forall s k s' g, plain k -> s_lib s = None -> s_filters s = None -> step send_ok filters_of sub_of s k = (s', g) ->
  s_lib s' = None /\ s_filters s' = None /\
  exists m, s_sent s' = s_sent s ++ m /\
    count is_library (map snd m) = count asks_library [k] /\ (count asks_filters [k] <= count is_filters (map snd m))%nat.
Proof.
  intros s k s' g P L F H. unfold step in H. destruct k as [o| |n v| | |id]; [destruct P| | | | |]; unfold got in H; injection H as <- <-.
  - destruct (rpc_reply s) as [s1 x] eqn:R. destruct (reply_ext _ _ _ R) as [[_ [_ [A B]]] [E _]]. cbn. rewrite A, B, E.
    repeat split; try assumption. exists []. rewrite app_nil_r. repeat split. cbn. lia.
  - unfold get_schema. destruct (request send_ok (OSchema n v) s) as [s1 [y|e]] eqn:R; destruct (request_sent _ _ _ _ R) as [A [B C]].
    + destruct y as [[t|l|d|z]|]; cbn; rewrite A, B, C; (repeat split; try assumption); eexists; repeat split; cbn; lia.
    + cbn; rewrite A, B, C; (repeat split; try assumption); eexists; repeat split; cbn; lia.
  - unfold get_library. rewrite L. destruct (request send_ok OLibrary s) as [s1 [y|e]] eqn:R; destruct (request_sent _ _ _ _ R) as [A [B C]].
    + destruct y as [[t|l|d|z]|]; cbn; rewrite A, B, C; (repeat split; try assumption); eexists; repeat split; cbn; lia.
    + cbn; rewrite A, B, C; (repeat split; try assumption); eexists; repeat split; cbn; lia.
  - destruct (get_filters send_ok filters_of s) as [s1 x] eqn:R. destruct (filters_sent _ _ _ F R) as [A [B C]].
    cbn; rewrite A, B, C; (repeat split; try assumption); eexists; repeat split; cbn; lia.
  - unfold get_sub. destruct (request send_ok (OSub id) s) as [s1 [y|e]] eqn:R; destruct (request_sent _ _ _ _ R) as [A [B C]].
    2: { cbn; rewrite A, B, C; (repeat split; try assumption); eexists; repeat split; cbn; lia. }
    destruct y as [[t|l|d|z]|]; cbn; try (rewrite A, B, C; (repeat split; try assumption); eexists; repeat split; cbn; lia).
    destruct (sub_of d) as [[x c]|]; cbn; [|rewrite A, B, C; (repeat split; try assumption); eexists; repeat split; cbn; lia].
    destruct (su_sel x) as [n|v|]; cbn; try (rewrite A, B, C; (repeat split; try assumption); eexists; repeat split; cbn; lia).
    rewrite F in C. destruct (get_filters send_ok filters_of s1) as [s2 y] eqn:G. destruct (filters_sent _ _ _ C G) as [A2 [B2 C2]].
    destruct y; cbn; rewrite A2, B2, C2, A, B; (repeat split; try assumption); eexists; rewrite <- app_assoc; repeat split; cbn; lia.
Qed.
Lemma run_counts : forall ks s s' gs, Forall plain ks -> s_lib s = None -> s_filters s = None -> run send_ok filters_of sub_of s ks = (s', gs) ->
  exists m, s_sent s' = s_sent s ++ m /\
    count is_library (map snd m) = count asks_library ks /\ (count asks_filters ks <= count is_filters (map snd m))%nat.
Proof.
  induction ks as [|k r IH]; intros s s' gs P L F H; cbn in H.
  - injection H as <- <-. exists []. rewrite app_nil_r. repeat split. cbn. lia.
  - destruct (step send_ok filters_of sub_of s k) as [s1 g] eqn:S. destruct (run send_ok filters_of sub_of s1 r) as [s2 os] eqn:R. injection H as <- <-.
    inversion P as [|? ? P1 P2]; subst. destruct (step_counts _ _ _ _ P1 L F S) as [L1 [F1 [m [A [B C]]]]].
    destruct (IH _ _ _ P2 L1 F1 R) as [m2 [A2 [B2 C2]]]. exists (m ++ m2). rewrite A2, A, app_assoc. split; [reflexivity|].
    rewrite map_app, !count_app, B, B2. change (k :: r) with ([k] ++ r). rewrite !count_app. split; [reflexivity|lia].
Qed.

(* in step with the peer *)
Lemma run_in_step : forall ans ks os s, Forall2 (fun k o => asks k = Some o) ks os -> idle s ->
  s_next s + N.of_nat (length ks) < 2 ^ 32 -> s_in s = in_order dec ans (s_next s) os ->
  Forall2 (fun k g => usable filters_of ans k -> ~ failed g) ks (snd (run send_ok filters_of sub_of s ks)).
Proof.
  intros ans. induction ks as [|k r IH]; intros os s A D B I; inversion A as [|? o ? os' K A']; subst; cbn [run]; [constructor|].
  cbn [in_order] in I. cbn [length] in B. assert (B1 : s_next s + 1 < 2 ^ 32) by lia.
  destruct (step_head _ filters_of sub_of SO _ _ _ _ _ D B1 K I) as [g [S [_ G]]]. rewrite S.
  specialize (IH os' (Sess (s_next s + 1) None None (in_order dec ans (s_next s + 1) os') false (s_sent s ++ [(dec (s_next s), o)])) A').
  destruct (run send_ok filters_of sub_of _ r) as [s2 gs]. cbn [snd] in *. constructor.
  - intros U Q. assert (V : valid_id (dec (s_next s)) (Reply (Some (dec (s_next s))) (ans o)) = true)
      by (unfold valid_id; cbn; destruct (bytes_eqb_spec (dec (s_next s)) (dec (s_next s))); congruence).
    specialize (G V). cbn [rp_content] in G. destruct k as [x| |n v| | |id]; try discriminate K; injection K as <-; cbn in U.
    + destruct U as [t [e E]]. rewrite E in G. cbn in G. rewrite G in Q. exact Q.
    + destruct U as [t [e E]]. rewrite E in G. cbn in G. rewrite G in Q. exact Q.
    + destruct U as [f [d [[e E] W]]]. rewrite E in G. cbn in G. rewrite W in G. rewrite G in Q. exact Q.
  - apply IH; [repeat split|cbn [s_next]; lia|reflexivity].
Qed.
(* one reply behind *)
Lemma run_behind : forall ans ks os n s, Forall (fun k => asks k <> None) ks -> idle s -> s_next s = n + 1 ->
  s_next s + N.of_nat (length ks) < 2 ^ 32 -> s_in s = in_order dec ans n os ->
  Forall failed (snd (run send_ok filters_of sub_of s ks)).
Proof.
  intros ans. induction ks as [|k r IH]; intros os n s A D X B I; inversion A as [|? ? K A']; subst; cbn [run]; [constructor|].
  destruct (asks k) as [o|] eqn:KO; [|congruence]. cbn [length] in B. destruct os as [|o' os'].
  - cbn in I. destruct D as [L [F E]]. assert (Q : s_errored s = true \/ match s_in s with IReply _ :: _ => False | _ => True end) by (right; rewrite I; exact Logic.I).
    destruct (step_none _ filters_of sub_of SO _ _ _ L F KO Q) as [s' [g [S [G [N1 [L1 [F1 [I1 E1]]]]]]]]. rewrite S.
    assert (B1 : s_next s + 1 < 2 ^ 32) by lia. rewrite (N.mod_small _ _ B1) in N1. rewrite E, I in I1, E1. cbn in I1, E1.
    specialize (IH [] (n + 1) s' A'). destruct (run send_ok filters_of sub_of s' r) as [s2 gs]. constructor; [exact G|].
    apply IH; [repeat split; assumption|lia|lia|exact I1].
  - cbn in I. assert (B1 : s_next s + 1 < 2 ^ 32) by lia.
    destruct (step_head _ filters_of sub_of SO _ _ _ _ _ D B1 KO I) as [g [S [G _]]]. rewrite S.
    assert (V : valid_id (dec (s_next s)) (Reply (Some (dec n)) (ans o')) = false).
    { unfold valid_id. cbn. destruct (bytes_eqb_spec (dec (s_next s)) (dec n)) as [E|]; [apply dec_inj in E; lia|reflexivity]. }
    specialize (IH os' (n + 1) (Sess (s_next s + 1) None None (in_order dec ans (n + 1) os') false (s_sent s ++ [(dec (s_next s), o)])) A').
    destruct (run send_ok filters_of sub_of _ r) as [s2 gs]. constructor; [exact (G V)|].
    apply IH; [repeat split|cbn [s_next]; lia|cbn [s_next]; lia|reflexivity].
Qed.
(* the plain rpc *)
Lemma run_rpcs : forall o n s, let s' := fst (run send_ok filters_of sub_of s (repeat (KRpc o) n)) in
  s_next s < 2 ^ 32 -> s_next s' = (s_next s + N.of_nat n) mod 2 ^ 32 /\
  exists m, s_sent s' = s_sent s ++ m /\ length m = n /\
    forall i, (i < n)%nat -> nth_error m i = Some (dec ((s_next s + N.of_nat i) mod 2 ^ 32), o).
Proof.
  intros o n. induction n as [|n IH]; intros s s' B; unfold s'; clear s'.
  - cbn. rewrite N.add_0_r, N.mod_small by exact B. split; [reflexivity|]. exists []. rewrite app_nil_r. repeat split. intros i L. lia.
  - set (s1 := Sess ((s_next s + 1) mod 2 ^ 32) (s_lib s) (s_filters s) (s_in s) (s_errored s) (s_sent s ++ [(dec (s_next s), o)])).
    assert (ST : step send_ok filters_of sub_of s (KRpc o) = (s1, GId (dec (s_next s)))).
    { unfold step, rpc, next_id, send. cbn [s_sent]. rewrite SO. reflexivity. }
    cbn [repeat run]. rewrite ST.
    assert (B1 : s_next s1 < 2 ^ 32) by (cbn [s1 s_next]; apply N.mod_lt; lia).
    specialize (IH s1 B1). cbn zeta in IH. destruct (run send_ok filters_of sub_of s1 (repeat (KRpc o) n)) as [s2 gs]. cbn [fst] in *.
    destruct IH as [A [m [C [D E]]]]. cbn [s1 s_next s_sent] in *. split.
    + rewrite A, N.add_mod_idemp_l by lia. f_equal. lia.
    + exists ((dec (s_next s), o) :: m). rewrite C, <- app_assoc. split; [reflexivity|]. split; [cbn; lia|].
      intros [|i] L.
      * cbn. rewrite N.add_0_r, N.mod_small by exact B. reflexivity.
      * cbn [nth_error]. rewrite E by lia. rewrite N.add_mod_idemp_l by lia. do 4 f_equal. lia.
Qed.
End Counts.
