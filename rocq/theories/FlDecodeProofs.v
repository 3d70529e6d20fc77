From Verif Require Import Base BaseLemmas AfModel MapLib FlModel FlSpec FlSafeProofs.

Ltac ssafe1 := repeat first
  [ apply ssafe_ret | apply ssafe_fail | apply ssafe_get | apply ssafe_mod
  | apply ssafe_lift; first [apply safe_p_padding | apply safe_times, safe_fspec | solve [psafe]]
  | apply ssafe_bind; [|intros ?] | apply ssafe_sub
  | match goal with |- ssafe (if ?x then _ else _) => destruct x end ].
Lemma be_val_2 a b : be_val [a; b] = a * 256 + b.
Proof. unfold be_val; cbn [fold_left]. lia. Qed.
Lemma peek_app b n rest off : blen b = n -> peek_be n (mkR (b ++ rest) off) = (mkR (b ++ rest) off, Ok (be_val b)).
Proof.
  intros <-. unfold peek_be; cbn [rbuf roff]. rewrite blen_app, take_app_exact by reflexivity.
  replace (blen b + blen rest <? blen b) with false by lia. reflexivity.
Qed.
Lemma take_slice_app b rest off : take_slice (blen b) (mkR (b ++ rest) off) = (mkR rest (off + blen b), Ok (mkR b off)).
Proof.
  unfold take_slice. rewrite (parses_bytes b (blen b) eq_refl rest off). reflexivity.
Qed.

Lemma sstep {T A B} (p : parser perr A) (f : A -> sparser T B) t r r' a :
  p r = (r', Ok a) -> sbind (plift p) f t r = f a t r'.
Proof. intros H. unfold sbind, slift, pmap_err. rewrite H. reflexivity. Qed.
(* every buffer with at least four octets *)
Lemma split4 (buf : list N) : 4 <= blen buf ->
  exists v l tl, buf = v ++ l ++ tl /\ blen v = 2 /\ blen l = 2 /\
                 be_val v = version_of buf /\ be_val l = declared buf.
Proof.
  intros H. destruct buf as [|a [|b [|c [|d tl]]]];
    try (repeat rewrite ?blen_cons, ?blen_nil in H; lia).
  exists [a; b], [c; d], tl. rewrite !be_val_2. cbn. auto.
Qed.


Section Decode.
Context (iana : N -> option dtype) (vendor : N -> option (N -> option dtype)) (millis_ok : Z -> bool).
Notation decode := (decode iana vendor millis_ok).
Notation p_ipkt := (p_ipkt iana vendor millis_ok).
Notation p_npkt := (p_npkt iana vendor millis_ok).

Definition p_body : sparser tmap ipkt :=
  sdo time <- plift read_u32;;
  sdo seq <- plift read_u32;;
  sdo dom <- plift read_u32;;
  sdo sets <- swhile_all (fun r => negb (ris_empty r)) (p_iset iana vendor millis_ok);;
  sret (mkIP time seq dom sets).

Lemma p_ipkt_eq m v l x rest :
  blen v = 2 -> be_val v = 10 -> blen l = 2 -> be_val l = 4 + blen x -> 16 <= be_val l ->
  p_ipkt m (rnew (v ++ l ++ x ++ rest)) =
  (let '(m', _, o) := p_body m (mkR x 4) in (m', mkR rest (be_val l), o)).
Proof.
  intros Hv Hv10 Hl Hlx H16. unfold FlModel.p_ipkt, rnew.
  erewrite sstep by (apply (peek_app v 2); assumption). rewrite Hv10. change (10 =? 10) with true. cbn [negb].
  erewrite sstep by (apply (parses_be_raw v 2); now symmetry).
  erewrite sstep by (apply (peek_app l 2); assumption).
  replace (be_val l <? 16) with false by lia.
  erewrite sstep by (apply (parses_be_raw l 2); now symmetry).
  replace (be_val l - 4) with (blen x) by lia.
  erewrite sstep by (apply take_slice_app). unfold son_sub.
  rewrite Hv, Hl. change (0 + 2 + 2) with 4. fold p_body.
  destruct (p_body m (mkR x 4)) as [[m' r'] o]. rewrite Hlx. reflexivity.
Qed.

Definition out_of (o : res ferr ipkt) : decoded :=
  match o with Ok p => Packet (Ipfix p) | Err e => Rejected e | Panic => DPanic | Diverge => DDiverge end.

Lemma p_body_no_crash m r : no_crash (snd (p_body m r)).
Proof.
  assert (H : ssafe p_body).
  { unfold p_body. ssafe1. apply ssafe_while; [apply ssafe_iset|]. apply seats_while_cond.
    eapply seats_weaken; [apply seats_iset|lia]. }
  apply H.
Qed.

Lemma decode_ipfix_eq c v l x rest :
  blen v = 2 -> be_val v = 10 -> blen l = 2 -> be_val l = 4 + blen x -> 16 <= be_val l ->
  decode c (v ++ l ++ x ++ rest) =
  (let '(m', _, o) := p_body (c_ipfix c) (mkR x 4) in (mkC (c_netflow c) m', rest, out_of o)).
Proof.
  intros Hv Hv10 Hl Hlx H16. unfold FlModel.decode.
  rewrite !blen_app, Hv, Hl.
  replace (2 + (2 + (blen x + blen rest)) <? 16) with false by lia.
  rewrite (take_app_exact v) by (now symmetry). rewrite (drop_app_exact v) by (now symmetry).
  rewrite (take_app_exact l) by (now symmetry).
  replace (2 + (2 + (blen x + blen rest)) <? be_val l) with false by lia.
  rewrite Hv10. change (10 =? 10) with true. cbn iota.
  unfold decode_ipfix. rewrite p_ipkt_eq by assumption.
  pose proof (p_body_no_crash (c_ipfix c) (mkR x 4)) as Hn.
  assert (Hd : drop (be_val l) (v ++ l ++ x ++ rest) = rest).
  { rewrite !app_assoc. apply drop_app_exact. rewrite !blen_app. lia. }
  destruct (p_body (c_ipfix c) (mkR x 4)) as [[m' r'] [p|e| |]]; cbn [snd] in Hn; try contradiction; cbn [out_of].
  - cbn [roff]. rewrite Hd. reflexivity.
  - replace (be_val l <? 5) with false by lia.
    rewrite !blen_app. replace (blen v + (blen l + (blen x + blen rest)) <? be_val l) with false by lia.
    rewrite Hd. reflexivity.
Qed.

Lemma decode_short c buf : blen buf < 16 \/ blen buf < declared buf -> decode c buf = (c, buf, NeedMore).
Proof.
  intros H. unfold FlModel.decode. destruct (blen buf <? 16) eqn:E; [reflexivity|].
  destruct H as [H|H]; [lia|]. destruct (split4 buf) as (v & l & tl & Hb & Hv & Hl & _ & Hd); [lia|].
  rewrite <- Hd in H. replace (take 2 (drop 2 buf)) with l.
  - replace (blen buf <? be_val l) with true by lia. reflexivity.
  - rewrite Hb, (drop_app_exact v) by (now symmetry). now rewrite (take_app_exact l) by (now symmetry).
Qed.

Lemma decode_long c buf : 16 <= blen buf -> declared buf <= blen buf ->
  decode c buf =
  if version_of buf =? 10 then decode_ipfix iana vendor millis_ok c buf (declared buf)
  else if version_of buf =? 9 then decode_netflow iana vendor millis_ok c buf
  else (c, [], Rejected (FE_Version (version_of buf))).
Proof.
  intros H1 H2. unfold FlModel.decode. replace (blen buf <? 16) with false by lia.
  destruct (split4 buf) as (v & l & tl & Hb & Hv & Hl & Hvv & Hd); [lia|].
  replace (take 2 buf) with v by (rewrite Hb; now rewrite take_app_exact by (now symmetry)).
  replace (take 2 (drop 2 buf)) with l
    by (rewrite Hb, (drop_app_exact v) by (now symmetry); now rewrite (take_app_exact l) by (now symmetry)).
  rewrite Hvv, Hd. replace (blen buf <? declared buf) with false by lia. reflexivity.
Qed.

(* the length field of an IPFIX message below the header size *)
Lemma decode_ipfix_tiny c buf : 16 <= blen buf -> version_of buf = 10 -> declared buf < 16 ->
  decode c buf = (c, drop (N.max 5 (declared buf)) buf, Rejected (FE_Length (declared buf))).
Proof.
  intros H1 Hv H2. rewrite decode_long by lia. rewrite Hv. change (10 =? 10) with true. cbn iota.
  unfold decode_ipfix.
  destruct (split4 buf) as (v & l & tl & Hb & Hvl & Hl & Hvv & Hd); [lia|].
  assert (Hp : p_ipkt (c_ipfix c) (rnew buf) = (c_ipfix c, mkR (l ++ tl) 2, Err (FE_Length (declared buf)))).
  { rewrite Hb. unfold FlModel.p_ipkt, rnew.
    erewrite sstep by (apply (peek_app v 2); assumption). rewrite Hvv, Hv. change (10 =? 10) with true. cbn [negb].
    erewrite sstep by (apply (parses_be_raw v 2); now symmetry).
    erewrite sstep by (apply (peek_app l 2); assumption). rewrite Hd.
    rewrite <- Hb. replace (declared buf <? 16) with true by lia. unfold sfail. now rewrite Hvl. }
  rewrite Hp. replace (N.max 5 (declared buf)) with (if declared buf <? 5 then 5 else declared buf)
    by (destruct (declared buf <? 5) eqn:E; lia).
  replace (blen buf <? (if declared buf <? 5 then 5 else declared buf)) with false
    by (destruct (declared buf <? 5) eqn:E; lia).
  destruct c; reflexivity.
Qed.

Lemma decode_ipfix_full c buf : version_of buf = 10 -> 16 <= declared buf <= blen buf ->
  exists used rest, buf = used ++ rest /\ blen used = declared buf /\
  forall y, decode c (used ++ y) = (fst (fst (decode c buf)), y, snd (decode c buf)) /\
            snd (fst (decode c buf)) = rest /\
            match snd (decode c buf) with Packet (Ipfix _) | Rejected _ => True | _ => False end.
Proof.
  intros Hv Hd. destruct (split4 buf) as (v & l & tl & Hb & Hvl & Hl & Hvv & Hdd); [lia|].
  assert (Hlen : 4 + blen tl = blen buf) by (rewrite Hb, !blen_app; lia).
  destruct (app_split_at tl (declared buf - 4)) as (x & rest & Htl & Hx); [lia|].
  exists (v ++ l ++ x), rest. rewrite <- !app_assoc, <- Htl, <- Hb. split; [reflexivity|].
  rewrite !blen_app. split; [lia|]. intros y.
  rewrite <- !app_assoc. rewrite (decode_ipfix_eq c v l x y) by lia.
  rewrite Hb, Htl, (decode_ipfix_eq c v l x rest) by lia.
  pose proof (p_body_no_crash (c_ipfix c) (mkR x 4)) as Hn.
  destruct (p_body (c_ipfix c) (mkR x 4)) as [[m' r'] o]. cbn [fst snd] in *.
  split; [reflexivity|]. split; [reflexivity|]. destruct o; cbn; auto.
Qed.

Lemma seats_npkt : seats 2 p_npkt.
Proof.
  unfold FlModel.p_npkt. apply seats_bind_r; [ssafe1|]. intros v. destruct (negb (v =? 9)); [apply seats_fail|].
  apply seats_2; [intros|apply eats_map_err, eats_be]. ssafe1.
  intros m r. apply safe_nsets. lia.
Qed.

Lemma decode_netflow_progress c buf c' rest o : 16 <= blen buf ->
  decode_netflow iana vendor millis_ok c buf = (c', rest, o) ->
  c_ipfix c' = c_ipfix c /\ exists used, used <> [] /\ buf = used ++ rest /\
  match o with Packet (NetFlow _) | Rejected _ => True | _ => False end.
Proof.
  intros Hb. unfold decode_netflow. pose proof (ssafe_npkt iana vendor millis_ok (c_netflow c) (rnew buf)) as [Ha Hn].
  pose proof (seats_npkt (c_netflow c) (rnew buf)) as He.
  destruct (p_npkt (c_netflow c) (rnew buf)) as [[m r] [p|e| |]]; cbn [fst snd] in *; try contradiction;
    intros H; inversion H; subst; clear H; cbn; (split; [reflexivity|]).
  - specialize (He p eq_refl). destruct Ha as [pre [H1 H2]]. unfold rnew in *; cbn [rbuf roff] in *.
    exists pre. rewrite H1. rewrite drop_app_exact by lia. split; [|auto].
    intros ->. cbn [app] in H1. rewrite <- H1 in He. lia.
  - exists buf. rewrite app_nil_r. split; [|auto]. intros ->. rewrite blen_nil in Hb; lia.
Qed.

Lemma decode_cases c buf :
  match decode c buf with
  | (c', rest, NeedMore) => c' = c /\ rest = buf /\ (blen buf < 16 \/ blen buf < declared buf)
  | (c', rest, Packet _) | (c', rest, Rejected _) => exists used, used <> [] /\ buf = used ++ rest
  | (_, _, (DPanic | DDiverge)) => False
  end.
Proof.
  destruct (N.ltb_spec (blen buf) 16) as [H1|H1]; [rewrite decode_short by auto; auto|].
  destruct (N.ltb_spec (blen buf) (declared buf)) as [H2|H2]; [rewrite decode_short by auto; auto|].
  destruct (N.eq_dec (version_of buf) 10) as [Hv|Hv].
  - destruct (N.ltb_spec (declared buf) 16) as [H3|H3].
    + rewrite decode_ipfix_tiny by assumption. exists (take (N.max 5 (declared buf)) buf).
      rewrite take_drop. split; [|reflexivity]. intros E. apply (f_equal blen) in E.
      rewrite blen_take, blen_nil in E; lia.
    + destruct (decode_ipfix_full c buf) as (used & rest & Hb & Hu & Hall); [assumption|lia|].
      destruct (Hall []) as (_ & Hr & Hm). destruct (decode c buf) as [[c' rest'] o]. cbn [fst snd] in *. subst rest'.
      assert (Hne : used <> []) by (intros ->; rewrite blen_nil in Hu; lia).
      destruct o as [|[p|p]|e| |]; try contradiction; eauto.
  - rewrite decode_long by lia. replace (version_of buf =? 10) with false by lia.
    destruct (version_of buf =? 9) eqn:E9.
    + destruct (decode_netflow iana vendor millis_ok c buf) as [[c' rest] o] eqn:E.
      apply decode_netflow_progress in E as (_ & used & Hne & Hb & Hm); [|assumption].
      destruct o as [|[p|p]|e| |]; try contradiction; eauto.
    + exists buf. rewrite app_nil_r. split; [|reflexivity]. intros ->. rewrite blen_nil in H1; lia.
Qed.
Lemma decode_packet_version c buf c' rest p : decode c buf = (c', rest, Packet p) ->
  match p with
  | Ipfix _ => version_of buf = 10 /\ 16 <= declared buf <= blen buf
  | NetFlow _ => version_of buf = 9 /\ 16 <= blen buf /\ c_ipfix c' = c_ipfix c
  end.
Proof.
  intros H. destruct (N.ltb_spec (blen buf) 16) as [H1|H1]; [rewrite decode_short in H by auto; inversion H|].
  destruct (N.ltb_spec (blen buf) (declared buf)) as [H2|H2]; [rewrite decode_short in H by auto; inversion H|].
  destruct (N.eq_dec (version_of buf) 10) as [Hv|Hv].
  - destruct (N.ltb_spec (declared buf) 16) as [H3|H3].
    + rewrite decode_ipfix_tiny in H by assumption. inversion H.
    + destruct (decode_ipfix_full c buf) as (used & rest' & Hb & Hu & Hall); [assumption|lia|].
      destruct (Hall []) as (_ & _ & Hm). rewrite H in Hm. cbn [snd] in Hm. destruct p; [split; lia|contradiction].
  - rewrite decode_long in H by lia. replace (version_of buf =? 10) with false in H by lia.
    destruct (version_of buf =? 9) eqn:E9; [|inversion H].
    apply decode_netflow_progress in H as (Hc & used & Hne & Hb & Hm); [|assumption].
    destruct p; [contradiction|]. split; [lia|auto].
Qed.
End Decode.
