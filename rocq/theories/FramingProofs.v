(* Generic proof that a decoder satisfying four local conditions is
   insensitive to how the stream is cut. *)
From Verif Require Import Base BaseLemmas FramingModel.

Section Framing.
Context {S I E : Type} (D : decoder S I E) (Inv : S -> list N -> Prop).

Hypothesis inv_app : forall s b x, Inv s b -> Inv s (b ++ x).
Hypothesis inv_step : forall s b s' b' o, Inv s b -> D s b = (s', b', o) -> halts o = false -> Inv s' b'.
Hypothesis none_stable : forall s b s' b' , Inv s b -> D s b = (s', b', DNone) ->
  b' = b /\ forall x, D s' (b ++ x) = D s (b ++ x).
Hypothesis some_stable : forall s b s' b' o, Inv s b -> D s b = (s', b', o) -> is_none o = false ->
  forall x, D s (b ++ x) = (s', b' ++ x, o).
Hypothesis progress : forall s b s' b' o, Inv s b -> D s b = (s', b', o) ->
  is_none o = false -> halts o = false -> (length b' < length b)%nat.

Lemma drain_fuel_enough f1 : forall f2 s b, Inv s b ->
  (length b < f1)%nat -> (length b < f2)%nat -> drain_fuel D f1 s b = drain_fuel D f2 s b.
Proof.
  induction f1 as [|f1 IH]; intros f2 s b Hi H1 H2; [lia|].
  destruct f2 as [|f2]; [lia|]. cbn [drain_fuel].
  destruct (D s b) as [[s' b'] o] eqn:Ed.
  destruct (is_none o) eqn:En; [reflexivity|].
  destruct (halts o) eqn:Eh; [reflexivity|].
  assert (Hp := progress _ _ _ _ _ Hi Ed En Eh).
  rewrite (IH f2 s' b'); [reflexivity| |lia|lia].
  eapply inv_step; eauto.
Qed.

Lemma drain_unfold s b : Inv s b ->
  drain D s b =
  match D s b with
  | (s', b', o) =>
      if is_none o then (s', b', [], Waiting)
      else if halts o then (s', b', [o], Halted)
      else match drain D s' b' with (s2, b2, os, st) => (s2, b2, o :: os, st) end
  end.
Proof.
  intros Hi. unfold drain at 1. cbn [drain_fuel].
  destruct (D s b) as [[s' b'] o] eqn:Ed.
  destruct (is_none o) eqn:En; [reflexivity|].
  destruct (halts o) eqn:Eh; [reflexivity|].
  assert (Hp := progress _ _ _ _ _ Hi Ed En Eh).
  unfold drain. rewrite (drain_fuel_enough (length b) (Datatypes.S (length b')) s' b');
    [reflexivity| |lia|lia].
  eapply inv_step; eauto.
Qed.

(* The drain loop terminates: it never runs out of fuel. *)
Lemma drain_spec n : forall s b, (length b <= n)%nat -> Inv s b ->
  exists s1 b1 os st, drain D s b = (s1, b1, os, st) /\
    ((st = Waiting /\ Inv s1 b1 /\ D s1 b1 = (s1, b1, DNone) /\
      forall x, drain D s (b ++ x) =
        match drain D s1 (b1 ++ x) with (s2, b2, os2, st2) => (s2, b2, os ++ os2, st2) end)
     \/ (st = Halted /\ forall x, drain D s (b ++ x) = (s1, b1 ++ x, os, Halted))).
Proof.
  induction n as [|n IH]; intros s b Hn Hi.
  all: rewrite (drain_unfold s b Hi); destruct (D s b) as [[s' b'] o] eqn:Ed.
  all: destruct (is_none o) eqn:En.
  1,3: destruct o; try discriminate En; clear En;
    destruct (none_stable _ _ _ _ Hi Ed) as [-> Hx];
    exists s', b, [], Waiting; split; [reflexivity|]; left; split; [reflexivity|];
    assert (Hi' : Inv s' b) by (eapply inv_step; eauto);
    split; [exact Hi'|]; split;
    [ specialize (Hx []); rewrite app_nil_r in Hx; rewrite Hx; exact Ed |];
    intros x; rewrite (drain_unfold s (b ++ x) (inv_app _ _ _ Hi));
    rewrite (drain_unfold s' (b ++ x) (inv_app _ _ _ Hi')), (Hx x);
    destruct (D s (b ++ x)) as [[s2 b2] o2]; destruct (is_none o2); [reflexivity|];
    destruct (halts o2); [reflexivity|]; destruct (drain D s2 b2) as [[[s3 b3] os3] st3]; reflexivity.
  all: destruct (halts o) eqn:Eh.
  1,3: exists s', b', [o], Halted; split; [reflexivity|]; right; split; [reflexivity|];
    intros x; rewrite (drain_unfold s (b ++ x) (inv_app _ _ _ Hi));
    rewrite (some_stable _ _ _ _ _ Hi Ed En x), En, Eh; reflexivity.
  - assert (Hp := progress _ _ _ _ _ Hi Ed En Eh). lia.
  - assert (Hp := progress _ _ _ _ _ Hi Ed En Eh).
    assert (Hi' : Inv s' b') by (eapply inv_step; eauto).
    destruct (IH s' b' ltac:(lia) Hi') as (s1 & b1 & os & st & Hd & Hcase).
    rewrite Hd. exists s1, b1, (o :: os), st. split; [reflexivity|].
    destruct Hcase as [[-> [Hi1 [Hn1 Hx]]]|[-> Hx]].
    + left. split; [reflexivity|]. split; [exact Hi1|]. split; [exact Hn1|].
      intros x. rewrite (drain_unfold s (b ++ x) (inv_app _ _ _ Hi)).
      rewrite (some_stable _ _ _ _ _ Hi Ed En x), En, Eh, Hx.
      destruct (drain D s1 (b1 ++ x)) as [[[s3 b3] os3] st3]; reflexivity.
    + right. split; [reflexivity|].
      intros x. rewrite (drain_unfold s (b ++ x) (inv_app _ _ _ Hi)).
      rewrite (some_stable _ _ _ _ _ Hi Ed En x), En, Eh, Hx. reflexivity.
Qed.

(* A connection between two reads. *)
Definition settled (c : conn S I E) : Prop :=
  match c_status c with
  | Waiting => Inv (c_st c) (c_buf c) /\ D (c_st c) (c_buf c) = (c_st c, c_buf c, DNone)
  | Halted => True
  | Looping => False
  end.

Lemma feed_settled c x : settled c -> settled (feed D c x).
Proof.
  unfold settled, feed. destruct (c_status c) eqn:Es; intros Hs; try contradiction.
  2: cbn [c_status]; rewrite ?Es; exact Logic.I.
  destruct Hs as [Hi _].
  destruct (drain_spec _ (c_st c) (c_buf c ++ x) (le_n _) (inv_app _ _ _ Hi))
    as (s1 & b1 & os & st & Hd & Hcase).
  rewrite Hd. cbn [c_status c_st c_buf].
  destruct Hcase as [[-> [H1 [H2 _]]]|[-> _]]; auto.
Qed.

Lemma drain_settled s b : Inv s b -> D s b = (s, b, DNone) -> drain D s b = (s, b, [], Waiting).
Proof. intros Hi Hd. rewrite (drain_unfold s b Hi), Hd. reflexivity. Qed.

Lemma feed_nil c : settled c -> feed D c [] = c.
Proof.
  unfold settled, feed. destruct c as [s b o st]. cbn [c_status c_st c_buf c_out].
  rewrite app_nil_r. destruct st; intros Hs; try contradiction; [|reflexivity].
  destruct Hs as [Hi Hd]. rewrite (drain_settled s b Hi Hd), app_nil_r. reflexivity.
Qed.

Lemma feed_app c x y : settled c -> feed D (feed D c x) y = feed D c (x ++ y).
Proof.
  intros Hs. unfold settled in Hs. unfold feed. destruct (c_status c) eqn:Es; try contradiction.
  2: cbn [c_status c_st c_buf c_out]; rewrite ?Es, app_assoc; reflexivity.
  destruct Hs as [Hi _].
  destruct (drain_spec _ (c_st c) (c_buf c ++ x) (le_n _) (inv_app _ _ _ Hi))
    as (s1 & b1 & os & st & Hd & Hcase).
  rewrite Hd. rewrite app_assoc. destruct Hcase as [[-> [_ [_ Hx]]]|[-> Hx]].
  - cbn [c_status c_st c_buf c_out]. rewrite Hx.
    destruct (drain D s1 (b1 ++ y)) as [[[s3 b3] os3] st3]. now rewrite app_assoc.
  - cbn [c_status c_st c_buf c_out]. rewrite Hx. reflexivity.
Qed.

Lemma feed_all_settled xs : forall c, settled c -> settled (feed_all D c xs).
Proof.
  induction xs as [|x xs IH]; intros c Hs; cbn; [exact Hs|]. apply IH. now apply feed_settled.
Qed.

Theorem feed_all_concat xs : forall c, settled c -> feed_all D c xs = feed D c (concat xs).
Proof.
  induction xs as [|x xs IH]; intros c Hs; cbn [concat]; unfold feed_all; cbn [fold_left].
  - symmetry; now apply feed_nil.
  - change (fold_left (feed D) xs (feed D c x)) with (feed_all D (feed D c x) xs).
    rewrite IH by now apply feed_settled. now apply feed_app.
Qed.
End Framing.
