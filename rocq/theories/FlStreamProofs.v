From Verif Require Import Base BaseLemmas AfModel MapLib FlModel FlSpec FlSafeProofs FlDecodeProofs.

Section Stream.
Context (iana : N -> option dtype) (vendor : N -> option (N -> option dtype)) (millis_ok : Z -> bool).
Notation decode := (decode iana vendor millis_ok).
Notation drain := (drain iana vendor millis_ok).
Notation feed := (feed iana vendor millis_ok).
Notation receive := (receive iana vendor millis_ok).

Lemma declared_app b y : 4 <= blen b -> declared (b ++ y) = declared b.
Proof.
  intros H. destruct b as [|a [|a1 [|a2 [|a3 b]]]]; repeat rewrite ?blen_cons, ?blen_nil in H; try lia. reflexivity.
Qed.
Lemma decode_message c d y : ipfix_message d ->
  exists c1 o, decode c d = (c1, [], o) /\ decode c (d ++ y) = (c1, y, o) /\ o <> NeedMore.
Proof.
  intros (Hv & H16 & Hd). destruct (decode_ipfix_full iana vendor millis_ok c d) as (used & rest & Hb & Hu & Hall); [assumption|lia|].
  assert (rest = []) as ->.
  { apply blen_0_nil. apply (f_equal blen) in Hb. rewrite blen_app in Hb. lia. }
  rewrite app_nil_r in Hb. subst used. destruct (Hall y) as (H1 & H2 & H3).
  destruct (decode c d) as [[c1 r] o]. cbn [fst snd] in *. subst r. exists c1, o. split; [reflexivity|]. split; [exact H1|].
  intros ->. exact H3.
Qed.
Lemma prefix_split {A} : forall (b y p q : list A), b ++ y = p ++ q ->
  (exists z, z <> [] /\ p = b ++ z) \/ (exists b', b = p ++ b' /\ b' ++ y = q).
Proof.
  induction b as [|x b IH]; intros y p q H.
  - destruct p as [|z p]; [right; exists []; auto|left; exists (z :: p); split; [discriminate|reflexivity]].
  - destruct p as [|z p]; [right; exists (x :: b); auto|]. cbn in H. inversion H; subst.
    apply IH in H2 as [(w & Hw & ->)|(b' & -> & Hb)]; [left; exists w; auto|right; exists b'; auto].
Qed.
Lemma receive_app c a b : receive c (a ++ b) =
  (let (o1, c1) := receive c a in let (o2, c2) := receive c1 b in (o1 ++ o2, c2)).
Proof.
  revert c; induction a as [|d a IH]; intros c; cbn [app FlSpec.receive].
  - destruct (receive c b); reflexivity.
  - destruct (decode c d) as [[c1 r] o]. rewrite IH. destruct (receive c1 a) as [o1 c2]. destruct (receive c2 b); reflexivity.
Qed.

Lemma drain_prefix : forall ms c b y n, Forall ipfix_message ms -> b ++ y = concat ms -> (length b < n)%nat ->
  exists done rest c1 r os, ms = done ++ rest /\ drain n c b = (c1, r, os) /\ receive c done = (os, c1) /\
    r ++ y = concat rest /\ decode c1 r = (c1, r, NeedMore).
Proof.
  induction ms as [|p ms IH]; intros c b y n Hm Hb Hn.
  - cbn in Hb. apply app_eq_nil in Hb as [-> ->]. destruct n as [|n]; [cbn in Hn; lia|].
    exists [], [], c, [], []. cbn [FlSpec.drain]. rewrite decode_short by (left; reflexivity). repeat split.
  - inversion Hm as [|? ? Hp Hms]; subst. cbn [concat] in Hb. destruct n as [|n]; [lia|]. cbn [FlSpec.drain].
    destruct (prefix_split _ _ _ _ Hb) as [(z & Hz & Hpb)|(b' & -> & Hb')].
    + (* incomplete *)
      exists [], (p :: ms), c, b, [].
      assert (Hshort : blen b < 16 \/ blen b < declared b).
      { destruct Hp as (_ & H16 & Hd). destruct (N.ltb_spec (blen b) 16); [now left|right].
        rewrite <- (declared_app b z) by lia. rewrite <- Hpb, Hd, Hpb, blen_app.
        destruct z; [congruence|rewrite blen_cons; lia]. }
      rewrite decode_short by assumption. repeat split. exact Hb.
    + destruct (decode_message c p b' Hp) as (c1 & o & H1 & H2 & H3). rewrite H2.
      destruct (IH c1 b' y n Hms Hb') as (done & rest & c2 & r & os & Hd & Hdr & Hrc & Hr & Hs).
      { rewrite app_length in Hn. destruct Hp as (_ & H16 & Hd). unfold blen in Hd. lia. }
      rewrite Hdr. exists (p :: done), rest, c2, r, (o :: os). split; [now rewrite Hd|]. split.
      * destruct o; congruence || reflexivity.
      * cbn [FlSpec.receive]. rewrite H1, Hrc. auto.
Qed.
Lemma settled_none c r ms : Forall ipfix_message ms -> decode c r = (c, r, NeedMore) -> r = concat ms -> ms = [].
Proof.
  intros Hm Hs ->. destruct ms as [|p ms]; [reflexivity|]. exfalso. inversion Hm; subst. cbn [concat] in Hs.
  destruct (decode_message c p (concat ms)) as (c1 & o & _ & Hd2 & Hne); [assumption|]. rewrite Hd2 in Hs. inversion Hs; subst. auto.
Qed.
Lemma feed_messages : forall pieces ms c r, Forall ipfix_message ms -> r ++ concat pieces = concat ms ->
  decode c r = (c, r, NeedMore) ->
  exists c' outs, feed c r pieces = (c', [], outs) /\ receive c ms = (outs, c').
Proof.
  induction pieces as [|x xs IH]; intros ms c r Hm Hr Hs; cbn [FlSpec.feed].
  - cbn [concat] in Hr. rewrite app_nil_r in Hr. pose proof (settled_none c r ms Hm Hs Hr) as ->. cbn in Hr. subst r.
    exists c, []. split; reflexivity.
  - cbn [concat] in Hr. rewrite app_assoc in Hr.
    destruct (drain_prefix ms c (r ++ x) (concat xs) (S (length (r ++ x))) Hm Hr) as (done & rest & c1 & r1 & os & -> & Hd & Hrc & Hr1 & Hs1); [lia|].
    apply Forall_app in Hm as [Hm1 Hm2].
    rewrite Hd. destruct (IH rest c1 r1 Hm2 Hr1 Hs1) as (c' & outs & Hf & Hrc2). rewrite Hf.
    exists c', (os ++ outs). split; [reflexivity|]. rewrite receive_app, Hrc, Hrc2. reflexivity.
Qed.
Lemma stream_of_messages c ms pieces : Forall ipfix_message ms -> concat pieces = concat ms ->
  exists c' outs, feed c [] pieces = (c', [], outs) /\ receive c ms = (outs, c').
Proof. intros Hm Hc. apply feed_messages; [assumption|assumption|]. apply decode_short. left. reflexivity. Qed.
End Stream.
