(* The BMP decoder cuts a stream into messages independently of how the
   stream arrives. *)
From Verif Require Import Base BaseLemmas AfModel FramingModel FramingProofs BgpCapModel BgpFrameModel BgpNlriModel
  BgpAttrModel BgpMsgModel BmpModel BmpSpec.

(* while a message is awaited its header was accepted *)
Definition bmp_inv (k : bmp_codec) (b : list N) : Prop :=
  bk_in k = true -> 5 <= blen b /\ version_ok (nth 0 b 0) = true /\ 5 <= frame_length b.

Lemma frame_length_app b x : 5 <= blen b -> frame_length (b ++ x) = frame_length b.
Proof.
  intros H. unfold frame_length. rewrite drop_app_le by lia.
  rewrite take_app_le; [reflexivity|]. rewrite blen_drop. lia.
Qed.
Lemma first_app (b x : list N) : 5 <= blen b -> nth 0 (b ++ x) 0 = nth 0 b 0.
Proof. destruct b; [rewrite blen_nil; lia|reflexivity]. Qed.

(* the decoder by cases *)
Lemma bmp_decode_cases k b : bmp_inv k b ->
  (blen b < 5 /\ bk_in k = false /\ bmp_decode k b = (k, b, DNone)) \/
  (5 <= blen b /\ version_ok (nth 0 b 0) = false /\
     bmp_decode k b = (k, drop 1 b, DErr (BM_Version (nth 0 b 0))) /\ bk_in k = false) \/
  (5 <= blen b /\ version_ok (nth 0 b 0) = true /\ frame_length b < 5 /\
     bmp_decode k b = (mkBmp false (bk_ctx k), drop 5 b, DErr (BM_Length (frame_length b)))) \/
  (5 <= blen b /\ version_ok (nth 0 b 0) = true /\ 5 <= frame_length b /\ blen b < frame_length b /\
     bmp_decode k b = (mkBmp true (bk_ctx k), b, DNone)) \/
  (5 <= blen b /\ version_ok (nth 0 b 0) = true /\ 5 <= frame_length b <= blen b /\
     bmp_decode k b =
       match parse_bmp (bk_ctx k) (rnew (take (frame_length b) b)) with
       | (m, _, Ok msg) => (mkBmp false (ctx_update msg m), drop (frame_length b) b, DItem msg)
       | (m, _, Err e) => (mkBmp false m, drop (frame_length b) b, DErr e)
       | (m, _, Panic) => (mkBmp false m, drop (frame_length b) b, DPanic)
       | (m, _, Diverge) => (mkBmp false m, drop (frame_length b) b, DPanic)
       end).
Proof.
  intros Hi. unfold bmp_decode. unfold bmp_inv in Hi.
  destruct (5 <=? blen b) eqn:H5.
  2: { left. destruct (bk_in k) eqn:Hk; [destruct (Hi eq_refl) as [? _]; lia|]. cbn [orb]. repeat split; lia. }
  rewrite orb_true_r. destruct b as [|v b]; [rewrite blen_nil in H5; discriminate|].
  right. change (nth 0 (v :: b) 0) with v in *. fold (frame_length (v :: b)). set (B := v :: b) in *.
  destruct (version_ok v) eqn:Hv; cbn [negb].
  2: { left. repeat split; try lia. destruct (bk_in k) eqn:Hk; [destruct (Hi eq_refl) as (_ & Hx & _); congruence|reflexivity]. }
  destruct (blen B <? 5) eqn:H5'; [lia|]. right.
  fold (frame_length B). destruct (frame_length B <? 5) eqn:Hl.
  { left. repeat split; lia. }
  right. destruct (blen B <? frame_length B) eqn:Hw.
  { left. repeat split; lia. }
  right. repeat split; lia.
Qed.

Lemma bmp_inv_app k b x : bmp_inv k b -> bmp_inv k (b ++ x).
Proof.
  intros Hi Hk. destruct (Hi Hk) as (H5 & Hv & Hl).
  rewrite first_app, frame_length_app, blen_app by exact H5. repeat split; try assumption; lia.
Qed.
(* also after an error or a panic *)
Lemma bmp_inv_step k b k' b' o : bmp_inv k b -> bmp_decode k b = (k', b', o) -> bmp_inv k' b'.
Proof.
  intros Hi Hd. destruct (bmp_decode_cases k b Hi) as
    [(H5 & Hk & H)|[(H5 & Hv & H & Hk)|[(H5 & Hv & Hl & H)|[(H5 & Hv & Hl & Hw & H)|(H5 & Hv & Hl & H)]]]];
    rewrite H in Hd; clear H.
  - injection Hd as <- <- <-. exact Hi.
  - injection Hd as <- <- <-. intros Hx. congruence.
  - injection Hd as <- <- <-. intros Hx. discriminate.
  - injection Hd as <- <- <-. intros _. repeat split; assumption.
  - destruct (parse_bmp _ _) as [[m r] [msg|e| |]]; injection Hd as <- <- <-; intros Hx; discriminate.
Qed.
Lemma bmp_none_stable k b k' b' : bmp_inv k b -> bmp_decode k b = (k', b', DNone) ->
  b' = b /\ bk_ctx k' = bk_ctx k /\ forall x, bmp_decode k' (b ++ x) = bmp_decode k (b ++ x).
Proof.
  intros Hi Hd. destruct (bmp_decode_cases k b Hi) as
    [(H5 & Hk & H)|[(H5 & Hv & H & Hk)|[(H5 & Hv & Hl & H)|[(H5 & Hv & Hl & Hw & H)|(H5 & Hv & Hl & H)]]]];
    rewrite H in Hd; clear H.
  - injection Hd as <- <-. repeat split; reflexivity.
  - discriminate.
  - discriminate.
  - injection Hd as <- <-. split; [reflexivity|]. split; [reflexivity|]. intros x.
    unfold bmp_decode. cbn [bk_in bk_ctx orb].
    replace (5 <=? blen (b ++ x)) with true by (symmetry; apply N.leb_le; rewrite blen_app; lia).
    rewrite orb_true_r. destruct (b ++ x) as [|v w] eqn:Ebx; [destruct b; [rewrite blen_nil in H5; lia|discriminate]|].
    assert (Hv' : version_ok v = true).
    { rewrite <- (first_app b x H5), Ebx in Hv. exact Hv. }
    rewrite Hv'. cbn [negb].
    replace (blen (v :: w) <? 5) with false by (symmetry; apply N.ltb_ge; rewrite <- Ebx, blen_app; lia). reflexivity.
  - destruct (parse_bmp _ _) as [[m r] [msg|e| |]]; discriminate.
Qed.
Lemma bmp_some_stable k b k' b' o : bmp_inv k b -> bmp_decode k b = (k', b', o) -> is_none o = false ->
  forall x, bmp_decode k (b ++ x) = (k', b' ++ x, o).
Proof.
  intros Hi Hd Ho x.
  assert (H5' : 5 <= blen b -> forall n, n <= blen b -> drop n b ++ x = drop n (b ++ x))
    by (intros; symmetry; apply drop_app_le; assumption).
  destruct (bmp_decode_cases (k) (b ++ x) (bmp_inv_app k b x Hi)) as
    [(G5 & Gk & G)|[(G5 & Gv & G & Gk)|[(G5 & Gv & Gl & G)|[(G5 & Gv & Gl & Gw & G)|(G5 & Gv & Gl & G)]]]];
  destruct (bmp_decode_cases k b Hi) as
    [(H5 & Hk & H)|[(H5 & Hv & H & Hk)|[(H5 & Hv & Hl & H)|[(H5 & Hv & Hl & Hw & H)|(H5 & Hv & Hl & H)]]]];
    rewrite H in Hd; clear H; rewrite G; clear G;
    try (injection Hd as <- <- <-; discriminate Ho);
    rewrite ?first_app, ?frame_length_app, ?blen_app in * by exact H5;
    try congruence; try lia;
    try (injection Hd as <- <- <-; rewrite H5' by lia; reflexivity).
  rewrite take_app_le by lia.
  destruct (parse_bmp _ _) as [[m r] [msg|e| |]]; injection Hd as <- <- <-; rewrite H5' by lia; reflexivity.
Qed.
Lemma bmp_progress k b k' b' o : bmp_inv k b -> bmp_decode k b = (k', b', o) -> is_none o = false ->
  (length b' < length b)%nat.
Proof.
  intros Hi Hd Ho.
  assert (Hdrop : forall n, 0 < n <= blen b -> (length (drop n b) < length b)%nat).
  { intros n Hn. unfold drop. rewrite skipn_length. unfold blen in Hn. lia. }
  destruct (bmp_decode_cases k b Hi) as
    [(H5 & Hk & H)|[(H5 & Hv & H & Hk)|[(H5 & Hv & Hl & H)|[(H5 & Hv & Hl & Hw & H)|(H5 & Hv & Hl & H)]]]];
    rewrite H in Hd; clear H; try (injection Hd as <- <- <-; (discriminate Ho || (apply Hdrop; lia))).
  destruct (parse_bmp _ _) as [[m r] [msg|e| |]]; injection Hd as <- <- <-; apply Hdrop; lia.
Qed.

(* ---- the driver that stops at the first error ---- *)
Lemma bmp_feed_all xs c : settled bmp_decode bmp_inv c -> feed_all bmp_decode c xs = feed bmp_decode c (concat xs).
Proof.
  apply feed_all_concat.
  - exact bmp_inv_app.
  - intros. eapply bmp_inv_step; eauto.
  - intros s b s' b' Hi Hd. destruct (bmp_none_stable _ _ _ _ Hi Hd) as (H1 & _ & H2). split; assumption.
  - exact bmp_some_stable.
  - intros. eapply bmp_progress; eauto.
Qed.
Lemma bmp_settled xs c : settled bmp_decode bmp_inv c -> settled bmp_decode bmp_inv (feed_all bmp_decode c xs).
Proof.
  apply feed_all_settled.
  - exact bmp_inv_app.
  - intros. eapply bmp_inv_step; eauto.
  - intros s b s' b' Hi Hd. destruct (bmp_none_stable _ _ _ _ Hi Hd) as (H1 & _ & H2). split; assumption.
  - exact bmp_some_stable.
  - intros. eapply bmp_progress; eauto.
Qed.
(* ---- the driver that goes on after an error ---- *)
Lemma resume_inv {S I E} (D : decoder S I E) s b s' b' o : resume D s b = (s', b', o) ->
  exists o', D s b = (s', b', o') /\
    match o with
    | DNone => o' = DNone | DItem (inl i) => o' = DItem i | DItem (inr e) => o' = DErr e
    | DErr e => False | DPanic => o' = DPanic
    end.
Proof.
  unfold resume. destruct (D s b) as [[s1 b1] [|i|e|]]; intros H; injection H as <- <- <-; eexists; split; reflexivity.
Qed.
Lemma resume_hyps :
  (forall s b s' b' o, bmp_inv s b -> resume bmp_decode s b = (s', b', o) -> halts o = false -> bmp_inv s' b') /\
  (forall s b s' b', bmp_inv s b -> resume bmp_decode s b = (s', b', DNone) ->
     b' = b /\ forall x, resume bmp_decode s' (b ++ x) = resume bmp_decode s (b ++ x)) /\
  (forall s b s' b' o, bmp_inv s b -> resume bmp_decode s b = (s', b', o) -> is_none o = false ->
     forall x, resume bmp_decode s (b ++ x) = (s', b' ++ x, o)) /\
  (forall s b s' b' o, bmp_inv s b -> resume bmp_decode s b = (s', b', o) -> is_none o = false ->
     halts o = false -> (length b' < length b)%nat).
Proof.
  split; [|split; [|split]].
  - intros s b s' b' o Hi H _. destruct (resume_inv _ _ _ _ _ _ H) as (o' & Hd & _). eapply bmp_inv_step; eauto.
  - intros s b s' b' Hi H. destruct (resume_inv _ _ _ _ _ _ H) as (o' & Hd & ->).
    destruct (bmp_none_stable _ _ _ _ Hi Hd) as (H1 & _ & H2). split; [exact H1|].
    intros x. unfold resume. rewrite H2. reflexivity.
  - intros s b s' b' o Hi H Ho x. unfold resume in *.
    destruct (bmp_decode s b) as [[s1 b1] o1] eqn:Hd.
    assert (Ho1 : is_none o1 = false) by (destruct o1; try reflexivity; injection H as <- <- <-; exact Ho).
    rewrite (bmp_some_stable _ _ _ _ _ Hi Hd Ho1 x). destruct o1; injection H as <- <- <-; reflexivity.
  - intros s b s' b' o Hi H Ho _. destruct (resume_inv _ _ _ _ _ _ H) as (o' & Hd & Ho').
    eapply bmp_progress; [exact Hi|exact Hd|]. destruct o as [|[i|e]|e|]; subst; (discriminate || reflexivity || easy).
Qed.
Lemma resume_feed_all xs c : settled (resume bmp_decode) bmp_inv c ->
  feed_all (resume bmp_decode) c xs = feed (resume bmp_decode) c (concat xs).
Proof. destruct resume_hyps as (H1 & H2 & H3 & H4). apply feed_all_concat; auto using bmp_inv_app. Qed.
Lemma resume_settled xs c : settled (resume bmp_decode) bmp_inv c ->
  settled (resume bmp_decode) bmp_inv (feed_all (resume bmp_decode) c xs).
Proof. destruct resume_hyps as (H1 & H2 & H3 & H4). apply feed_all_settled; auto using bmp_inv_app. Qed.
(* a decoder that is not in the middle of a message *)
Lemma fresh_settled k : bk_in k = false ->
  settled bmp_decode bmp_inv (conn_new k) /\ settled (resume bmp_decode) bmp_inv (conn_new k).
Proof.
  intros Hk. assert (Hi : bmp_inv k []) by (intros H; congruence).
  assert (Hd : bmp_decode k [] = (k, [], DNone)) by (unfold bmp_decode; rewrite Hk; reflexivity).
  unfold settled. cbn [c_status conn_new c_st c_buf]. split; (split; [exact Hi|]); [exact Hd|].
  unfold resume. rewrite Hd. reflexivity.
Qed.
