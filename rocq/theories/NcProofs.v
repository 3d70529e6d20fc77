From Verif Require Import Base BaseLemmas FramingModel NcModel NcSpec.
From Coq Require Import Lia.

Lemma bytes_eqb_spec a b : reflect (a = b) (bytes_eqb a b).
Proof.
  revert b. induction a as [|x a IH]; intros [|y b]; cbn; try (constructor; congruence).
  destruct (N.eqb_spec x y) as [->|Hn]; cbn; [|constructor; congruence].
  destruct (IH b); constructor; congruence.
Qed.
Lemma starts_with_app p r : starts_with p (p ++ r) = true.
Proof. unfold starts_with. rewrite take_app_exact by reflexivity. destruct (bytes_eqb_spec p p); congruence. Qed.
Lemma starts_with_inv p l : starts_with p l = true -> l = p ++ drop (blen p) l.
Proof.
  unfold starts_with. intros H. destruct (bytes_eqb_spec (take (blen p) l) p) as [Heq|]; [|discriminate].
  rewrite <- Heq at 1. symmetry. apply take_drop.
Qed.
Lemma app_inv_head_len {A} (a b c d : list A) : a ++ b = c ++ d -> length a = length c -> a = c /\ b = d.
Proof.
  revert c. induction a as [|x a IH]; intros [|y c] H L; cbn in *; try discriminate; [auto|].
  injection H as -> H. destruct (IH c H ltac:(lia)) as [-> ->]. auto.
Qed.
(* two ways of cutting the same list *)
Lemma app_cut {A} (a b c d : list A) : a ++ b = c ++ d ->
  (length a < length c)%nat /\ (exists t, t <> [] /\ c = a ++ t /\ b = t ++ d) \/
  (length c <= length a)%nat /\ exists t, a = c ++ t /\ d = t ++ b.
Proof.
  revert c. induction a as [|x a IH]; intros c H.
  - destruct c as [|y c]; cbn in *; [right; split; [lia|]; exists []; auto|].
    left. split; [lia|]. exists (y :: c). split; [discriminate|]. auto.
  - destruct c as [|y c]; cbn in *.
    + right. split; [lia|]. exists (x :: a). auto.
    + injection H as -> H. destruct (IH c H) as [(L & t & T & -> & ->)|(L & t & -> & ->)].
      * left. split; [lia|]. exists t. auto.
      * right. split; [lia|]. exists t. auto.
Qed.

(* ---- decimal numbers ---- *)
Lemma dec_val_app a b : dec_val (a ++ [b]) = dec_val a * 10 + (b - 48).
Proof. unfold dec_val. rewrite fold_left_app. reflexivity. Qed.
Lemma dec_fuel_val k : forall n, n < 2 ^ N.of_nat k * 10 -> dec_val (dec_fuel k n) = n.
Proof.
  induction k as [|k IH]; intros n H; cbn [dec_fuel].
  - cbn in H. unfold dec_val. cbn [fold_left]. rewrite N.mod_small by lia. lia.
  - destruct (N.ltb_spec n 10).
    + unfold dec_val. cbn [fold_left]. lia.
    + rewrite dec_val_app, IH; [lia|]. rewrite Nat2N.inj_succ, N.pow_succ_r' in H. lia.
Qed.
Lemma size_bound n : n < 2 ^ N.of_nat (N.size_nat n).
Proof.
  destruct n as [|p]; cbn -[N.of_nat]; [lia|]. change (Pos.size_nat p) with (Pos.size_nat p).
  induction p as [p IH|p IH|]; cbn [Pos.size_nat] in *; rewrite ?Nat2N.inj_succ, ?N.pow_succ_r'; lia.
Qed.
Lemma dec_val_dec n : dec_val (dec n) = n.
Proof. unfold dec. apply dec_fuel_val. pose proof (size_bound n). lia. Qed.
Lemma dec_fuel_digits k : forall n, forallb digit (dec_fuel k n) = true.
Proof.
  induction k as [|k IH]; intros n; cbn [dec_fuel].
  - cbn. unfold digit. rewrite andb_true_r. apply andb_true_iff. split; apply N.leb_le; lia.
  - destruct (N.ltb_spec n 10).
    + cbn. unfold digit. rewrite andb_true_r. apply andb_true_iff. split; apply N.leb_le; lia.
    + rewrite forallb_app, IH. cbn. unfold digit. rewrite andb_true_r. apply andb_true_iff. split; apply N.leb_le; lia.
Qed.
Lemma dec_digits n : forallb digit (dec n) = true. Proof. apply dec_fuel_digits. Qed.
Lemma dec_fuel_len k : forall n d, n < 10 ^ (d + 1) -> blen (dec_fuel k n) <= d + 1.
Proof.
  induction k as [|k IH]; intros n d H; cbn [dec_fuel].
  - rewrite blen_cons, blen_nil. lia.
  - destruct (N.ltb_spec n 10); [rewrite blen_cons, blen_nil; lia|].
    rewrite blen_app, blen_cons, blen_nil. destruct (N.eq_dec d 0) as [->|].
    + cbn in H. lia.
    + replace (d + 1) with (N.succ d) in H by lia. rewrite N.pow_succ_r' in H.
      specialize (IH (n / 10) (d - 1)). replace (d - 1 + 1) with d in IH by lia. specialize (IH ltac:(lia)). lia.
Qed.
Lemma dec_len n : n <= max_chunk -> blen (dec n) <= 10.
Proof.
  intros H. apply (dec_fuel_len _ n 9). unfold max_chunk in H. change (10 ^ (9 + 1)) with 10000000000. lia.
Qed.
Lemma dec_nonempty n : exists b r, dec n = b :: r /\ digit b = true.
Proof.
  pose proof (dec_digits n) as H. destruct (dec n) as [|b r] eqn:Hd.
  - exfalso. unfold dec in Hd. destruct (N.size_nat n) as [|k]; cbn [dec_fuel] in Hd; [discriminate|].
    destruct (n <? 10); [discriminate|]. apply app_eq_nil in Hd. destruct Hd. discriminate.
  - exists b, r. split; [reflexivity|]. cbn in H. apply andb_true_iff in H. tauto.
Qed.
Lemma dec_len1 n : 1 <= blen (dec n).
Proof. destruct (dec_nonempty n) as (b & r & -> & _). rewrite blen_cons. lia. Qed.
Lemma parse_dec n : n < 2 ^ 64 -> parse_usize (dec n) = Some n.
Proof.
  intros H. destruct (dec_nonempty n) as (b & r & Hd & Hb).
  assert (parse_digits (dec n) = Some n) as P.
  { unfold parse_digits. rewrite dec_digits, dec_val_dec, Hd. apply N.ltb_lt in H. rewrite H. reflexivity. }
  unfold parse_usize. rewrite Hd in *. unfold digit in Hb. apply andb_true_iff in Hb. destruct Hb as [Hb1 Hb2].
  apply N.leb_le in Hb1. apply N.leb_le in Hb2.
  destruct b as [|p]; [lia|]. do 6 (destruct p as [p|p|]; try exact P; try lia).
Qed.
Lemma position_app x a r : (forall y, In y a -> y <> x) -> position x (a ++ x :: r) = Some (blen a).
Proof.
  induction a as [|y a IH]; intros H; cbn [app position].
  - rewrite N.eqb_refl. reflexivity.
  - destruct (N.eqb_spec y x) as [->|]; [exfalso; apply (H x); [left|]; reflexivity|].
    rewrite IH by (intros z Hz; apply H; right; exact Hz). rewrite blen_cons. f_equal. lia.
Qed.
Lemma digits_no_lf l : forallb digit l = true -> forall y, In y l -> y <> 10.
Proof.
  intros H y Hy. rewrite forallb_forall in H. specialize (H y Hy). unfold digit in H.
  apply andb_true_iff in H. destruct H as [H _]. apply N.leb_le in H. lia.
Qed.

Lemma rfc_chunk_len c : blen (rfc_chunk c) = 3 + blen (dec (blen c)) + blen c.
Proof. unfold rfc_chunk. rewrite !blen_app. change (blen [10; 35]) with 2. change (blen [10]) with 1. lia. Qed.
Lemma rfc_chunk_third c : exists b r, rfc_chunk c = 10 :: 35 :: b :: r /\ b <> 35.
Proof.
  destruct (dec_nonempty (blen c)) as (b & r & Hd & Hb). unfold rfc_chunk. rewrite Hd. exists b, (r ++ [10] ++ c).
  split; [reflexivity|]. unfold digit in Hb. apply andb_true_iff in Hb. destruct Hb as [Hb _]. apply N.leb_le in Hb. lia.
Qed.

Lemma slice_ok a b l : a <= b -> b <= blen l -> slice a b l = Some (take (b - a) (drop a l)).
Proof.
  intros H1 H2. unfold slice. destruct (N.leb_spec a b); [|lia]. destruct (N.leb_spec b (blen l)); [reflexivity|lia].
Qed.
Lemma advance_ok n l : n <= blen l -> advance n l = Some (drop n l).
Proof. intros H. unfold advance. destruct (N.leb_spec n (blen l)); [reflexivity|lia]. Qed.
Lemma advance_app a r n : n = blen a -> advance n (a ++ r) = Some r.
Proof. intros ->. rewrite advance_ok by (rewrite blen_app; lia). rewrite drop_app_exact by reflexivity. reflexivity. Qed.

Section Codec.
Context {M : Type} (hello_of : list N -> option M) (base11 : M -> bool) (msg_of : list N -> option M).
Local Notation chunks := (chunks msg_of).
Local Notation D := (nc_decode hello_of base11 msg_of).

Lemma chunks_short f acc src : blen src < 13 -> chunks f acc src = (acc, src, DNone).
Proof.
  intros H. destruct f; cbn [NcModel.chunks]; [reflexivity|].
  change (blen chunk_mark + max_chunk_len + 1) with 13. apply N.ltb_lt in H. rewrite H. reflexivity.
Qed.
(* the header of a chunk, as the loop sees it *)
Lemma header_view c r : chunk_ok c -> blen (dec (blen c)) + 1 <= blen r + blen (dec (blen c)) + 1 ->
  position 10 (take 11 (dec (blen c) ++ 10 :: r)) = Some (blen (dec (blen c))) /\
  take (blen (dec (blen c))) (dec (blen c) ++ 10 :: r) = dec (blen c).
Proof.
  intros Hc _. unfold chunk_ok in Hc. pose proof (dec_len (blen c) ltac:(unfold max_chunk; lia)) as L. split.
  - assert (exists r', take 11 (dec (blen c) ++ 10 :: r) = dec (blen c) ++ 10 :: r') as [r' ->].
    { exists (firstn (10 - length (dec (blen c))) r). unfold take. change (N.to_nat 11) with 11%nat.
      unfold blen in L at 1. rewrite firstn_app. rewrite firstn_all2 by lia. f_equal.
      replace (11 - length (dec (blen c)))%nat with (S (10 - length (dec (blen c)))) by lia. reflexivity. }
    apply position_app. apply digits_no_lf, dec_digits.
  - apply take_app_exact. reflexivity.
Qed.
Lemma chunks_step f acc c r : chunk_ok c -> 13 <= blen (rfc_chunk c ++ r) ->
  chunks (S f) acc (rfc_chunk c ++ r) =
  (if starts_with msg_term r then
     match msg_of (acc ++ c) with
     | None => ([], r, DErr BadXml)
     | Some m => ([], drop (blen msg_term) r, DItem m)
     end
   else chunks f (acc ++ c) r).
Proof.
  intros Hc L. cbn [NcModel.chunks]. change (blen chunk_mark + max_chunk_len + 1) with 13.
  destruct (N.ltb_spec (blen (rfc_chunk c ++ r)) 13); [lia|].
  pose proof (rfc_chunk_len c) as LC.
  assert (rfc_chunk c ++ r = chunk_mark ++ (dec (blen c) ++ 10 :: c ++ r)) as HS.
  { unfold rfc_chunk. rewrite <- !app_assoc. reflexivity. }
  rewrite HS at 1. rewrite starts_with_app. cbn [negb].
  assert (drop (blen chunk_mark) (rfc_chunk c ++ r) = dec (blen c) ++ 10 :: c ++ r) as HD.
  { rewrite HS. apply drop_app_exact. reflexivity. }
  change (blen chunk_mark) with 2 in *. change (2 + max_chunk_len + 1) with 13.
  rewrite slice_ok by lia. change (13 - 2) with 11. rewrite HD.
  destruct (header_view c (c ++ r) Hc ltac:(lia)) as [-> HT].
  rewrite slice_ok by (rewrite ?blen_app; lia). rewrite HD.
  replace (2 + blen (dec (blen c)) - 2) with (blen (dec (blen c))) by lia. rewrite HT.
  unfold chunk_ok in Hc. rewrite parse_dec by (change (2 ^ 64) with 18446744073709551616; lia).
  destruct (N.eqb_spec (blen c) 0); [lia|]. unfold max_chunk. destruct (N.ltb_spec 4294967295 (blen c)); [lia|]. cbn [orb].
  assert (rfc_chunk c ++ r = (([10; 35] ++ dec (blen c) ++ [10]) ++ c) ++ r) as HS2.
  { unfold rfc_chunk. rewrite <- !app_assoc. reflexivity. }
  assert (blen ([10; 35] ++ dec (blen c) ++ [10]) = 2 + blen (dec (blen c)) + 1) as LH.
  { rewrite !blen_app. change (blen [10; 35]) with 2. change (blen [10]) with 1. lia. }
  rewrite HS2. set (h := [10; 35] ++ dec (blen c) ++ [10]) in *. clearbody h.
  replace (blen ((h ++ c) ++ r)) with (blen h + blen c + blen r) by (rewrite !blen_app; lia).
  rewrite <- LH. destruct (N.ltb_spec (blen h + blen c + blen r) (blen h + blen c)); [lia|].
  rewrite (advance_app (h ++ c) r (blen h + blen c)) by (rewrite blen_app; reflexivity).
  rewrite <- (app_assoc h c r). rewrite slice_ok by (rewrite ?blen_app; lia).
  rewrite (drop_app_exact h (c ++ r) (blen h)) by reflexivity. replace (blen h + blen c - blen h) with (blen c) by lia.
  rewrite (take_app_exact c r) by reflexivity.
  destruct (starts_with msg_term r) eqn:Hs; [|reflexivity]. apply starts_with_inv in Hs. rewrite Hs.
  rewrite (advance_app msg_term _ (blen msg_term)) by reflexivity. rewrite drop_app_exact by reflexivity. reflexivity.
Qed.
(* a chunk that has not arrived in full stays where it is *)
Lemma chunks_partial f acc c src y z : chunk_ok c -> src ++ y = rfc_chunk c ++ z -> blen src < blen (rfc_chunk c) ->
  chunks f acc src = (acc, src, DNone).
Proof.
  intros Hc He Hl. destruct f as [|f]; [reflexivity|]. cbn [NcModel.chunks]. change (blen chunk_mark + max_chunk_len + 1) with 13.
  destruct (N.ltb_spec (blen src) 13) as [|H13]; [reflexivity|].
  pose proof (rfc_chunk_len c) as LC. pose proof Hc as Hc'. unfold chunk_ok in Hc'.
  pose proof (dec_len (blen c) ltac:(unfold max_chunk; lia)) as L.
  destruct (app_cut _ _ _ _ He) as [(_ & t & Ht & Hsrc & _)|(Hx & _)]; [|unfold blen in Hl; lia].
  (* src contains the whole header *)
  assert (exists r, src = chunk_mark ++ (dec (blen c) ++ 10 :: r)) as [r Hr].
  { unfold rfc_chunk in Hsrc. rewrite !app_assoc in Hsrc. rewrite <- app_assoc in Hsrc.
    assert (([10; 35] ++ dec (blen c) ++ [10]) ++ c = src ++ t) as Hsrc' by (rewrite <- Hsrc, <- !app_assoc; reflexivity).
    destruct (app_cut _ _ _ _ Hsrc') as [(_ & u & _ & Hu & _)|(Hle & t' & Hh & _)].
    - exists u. rewrite Hu. rewrite <- !app_assoc. reflexivity.
    - pose proof (f_equal (@blen N) Hh) as Hb.
      rewrite !blen_app in Hb. change (blen [10; 35]) with 2 in Hb. change (blen [10]) with 1 in Hb.
      assert (t' = []) as -> by (apply blen_0_nil; lia). rewrite app_nil_r in Hh. exists []. rewrite <- Hh. reflexivity. }
  rewrite Hr at 1. rewrite starts_with_app. cbn [negb].
  assert (drop (blen chunk_mark) src = dec (blen c) ++ 10 :: r) as HD by (rewrite Hr; apply drop_app_exact; reflexivity).
  change (blen chunk_mark) with 2 in *. change (2 + max_chunk_len + 1) with 13. rewrite slice_ok by lia. rewrite HD.
  change (13 - 2) with 11. destruct (header_view c r Hc ltac:(lia)) as [-> HT].
  rewrite slice_ok; [|lia|rewrite Hr, !blen_app, blen_cons; change (blen chunk_mark) with 2; lia]. rewrite HD.
  replace (2 + blen (dec (blen c)) - 2) with (blen (dec (blen c))) by lia. rewrite HT.
  rewrite parse_dec by (change (2 ^ 64) with 18446744073709551616; lia).
  destruct (N.eqb_spec (blen c) 0); [lia|]. unfold max_chunk. destruct (N.ltb_spec 4294967295 (blen c)); [lia|]. cbn [orb].
  destruct (N.ltb_spec (blen src) (2 + blen (dec (blen c)) + 1 + blen c)); [reflexivity|lia].
Qed.

Lemma message_ok_cons c c2 cs : message_ok (c :: c2 :: cs) -> message_ok (c2 :: cs).
Proof.
  intros [H (cs' & l & He & Hl)]. split; [inversion H; assumption|].
  destruct cs' as [|c' cs']; cbn in He; [discriminate|]. injection He as -> He. exists cs', l. auto.
Qed.
Lemma message_len cs : message_ok cs -> 9 <= blen (rfc_chunks cs).
Proof.
  intros [_ (cs' & c & -> & Hc)]. unfold rfc_chunks. rewrite flat_map_app, blen_app. cbn [flat_map]. rewrite app_nil_r, rfc_chunk_len.
  pose proof (dec_len1 (blen c)). lia.
Qed.
Lemma not_end c x y : x ++ y = rfc_chunk c ++ [] \/ (exists z, x ++ y = rfc_chunk c ++ z) -> starts_with msg_term x = false.
Proof.
  intros H. assert (exists z, x ++ y = rfc_chunk c ++ z) as [z Hz] by (destruct H as [H|H]; [exists []|]; assumption). clear H.
  destruct (starts_with msg_term x) eqn:Hs; [|reflexivity]. apply starts_with_inv in Hs. rewrite Hs in Hz.
  destruct (rfc_chunk_third c) as (b & r & Hb & Hn). rewrite Hb in Hz. cbn in Hz. congruence.
Qed.

(* One run of the chunk loop over what has arrived of a message. *)
Lemma chunks_run rest ms2 m cs : forall fuel acc buf, (length buf < fuel)%nat ->
  message_ok cs -> buf ++ rest = rfc_chunks cs ++ rfc_end ++ rfc_stream ms2 ->
  (forall t1 t2, rfc_end = t1 ++ t2 -> t2 <> [] -> rest <> t2 ++ rfc_stream ms2) ->
  msg_of (acc ++ concat cs) = Some m ->
  (exists acc' cs' buf', chunks fuel acc buf = (acc', buf', DNone) /\ message_ok cs' /\
      acc' ++ concat cs' = acc ++ concat cs /\ buf' ++ rest = rfc_chunks cs' ++ rfc_end ++ rfc_stream ms2 /\ rest <> []) \/
  (exists buf', chunks fuel acc buf = ([], buf', DItem m) /\ buf' ++ rest = rfc_stream ms2 /\ (length buf' < length buf)%nat).
Proof.
  induction cs as [|c cs IH]; intros fuel acc buf Hf Hok He Hsafe Hm.
  { destruct Hok as [_ (cs' & c & H & _)]. destruct cs'; discriminate. }
  pose proof (message_len _ Hok) as HL. pose proof (f_equal (@blen N) He) as HLe. rewrite !blen_app in HLe.
  change (blen rfc_end) with 4 in HLe.
  destruct (N.lt_ge_cases (blen buf) 13) as [H13|H13].
  { left. exists acc, (c :: cs), buf. rewrite chunks_short by assumption. split; [reflexivity|]. split; [assumption|].
    split; [reflexivity|]. split; [assumption|]. intros ->. rewrite blen_nil in HLe. lia. }
  pose proof Hok as [HF _]. inversion HF as [|? ? Hc HF']. subst.
  unfold rfc_chunks in He. cbn [flat_map] in He. fold (rfc_chunks cs) in He. rewrite <- app_assoc in He.
  destruct (app_cut _ _ _ _ He) as [(Hlt & t & Ht & Hsplit & Hrest)|(Hle & b2 & -> & He2)].
  - left. exists acc, (c :: cs), buf. rewrite (chunks_partial _ _ c _ _ _ Hc He) by (unfold blen; lia).
    split; [reflexivity|]. split; [assumption|]. split; [reflexivity|]. split.
    + unfold rfc_chunks. cbn [flat_map]. rewrite <- app_assoc. exact He.
    + rewrite Hrest. intros Hn. apply app_eq_nil in Hn. destruct Hn. contradiction.
  - destruct fuel as [|fuel]; [lia|]. rewrite chunks_step by assumption. destruct cs as [|c2 cs].
    + cbn [rfc_chunks flat_map app] in He2.
      destruct (app_cut _ _ _ _ (eq_sym He2)) as [(_ & t & Ht & He3 & He4)|(_ & b3 & -> & He4)].
      { exfalso. apply (Hsafe b2 t He3 Ht). exact He4. }
      change rfc_end with msg_term. rewrite starts_with_app. cbn [concat] in Hm. rewrite app_nil_r in Hm. rewrite Hm.
      right. exists b3. rewrite drop_app_exact by reflexivity. split; [reflexivity|]. split; [auto|].
      rewrite !app_length. cbn. lia.
    + rewrite (not_end c2 b2 rest).
      2:{ right. exists (rfc_chunks cs ++ rfc_end ++ rfc_stream ms2). rewrite <- He2. unfold rfc_chunks. cbn [flat_map].
          rewrite <- app_assoc. reflexivity. }
      pose proof (rfc_chunk_len c). assert (length (rfc_chunk c) > 0)%nat by (unfold blen in *; lia).
      rewrite app_length in Hf. cbn [concat] in Hm.
      destruct (IH fuel (acc ++ c) b2 ltac:(lia) (message_ok_cons _ _ _ Hok) (eq_sym He2) Hsafe) as
        [(acc' & cs' & buf' & H1 & H2 & H3 & H4 & H5)|(buf' & H1 & H2 & H3)].
      { rewrite <- app_assoc. exact Hm. }
      * left. exists acc', cs', buf'. split; [exact H1|]. split; [exact H2|]. split; [|auto].
        rewrite H3. cbn [concat]. rewrite <- !app_assoc. reflexivity.
      * right. exists buf'. split; [exact H1|]. split; [exact H2|]. rewrite app_length. lia.
Qed.

(* what the messages still to come decode to; the first may have been
   received in part *)
Definition want (acc : list N) (ms : list (list (list N))) (outs : list M) : Prop :=
  match ms, outs with
  | [], [] => acc = []
  | cs :: ms', m :: outs' => msg_of (acc ++ concat cs) = Some m /\ Forall2 (fun cs m => msg_of (concat cs) = Some m) ms' outs'
  | _, _ => False
  end.
Lemma want_F2 ms outs : Forall2 (fun cs m => msg_of (concat cs) = Some m) ms outs -> want [] ms outs.
Proof. intros H. destruct H; cbn; auto. Qed.

Lemma cut_tail cs ms rest : ~ cut_in_end (cs :: ms) rest -> ~ cut_in_end ms rest.
Proof.
  intros H (a & m & b & t1 & t2 & -> & H2). apply H. exists (cs :: a), m, b, t1, t2. split; [reflexivity|exact H2].
Qed.
Lemma cut_same cs cs' ms rest : ~ cut_in_end (cs :: ms) rest -> ~ cut_in_end (cs' :: ms) rest.
Proof.
  intros H (a & m & b & t1 & t2 & E1 & H2). apply H. destruct a as [|x a]; cbn in E1; injection E1 as -> ->.
  - exists [], cs, b, t1, t2. split; [reflexivity|exact H2].
  - exists (cs :: a), m, b, t1, t2. split; [reflexivity|exact H2].
Qed.

Lemma decode_run acc buf : D (mkNc false acc) buf =
  match chunks (S (length buf)) acc buf with (a, b, o) => (mkNc false a, b, o) end.
Proof. reflexivity. Qed.
Lemma drain_stream rest : forall n buf acc ms outs fuel, (length buf <= n)%nat -> (length buf < fuel)%nat ->
  Forall message_ok ms -> want acc ms outs -> buf ++ rest = rfc_stream ms -> ~ cut_in_end ms rest ->
  exists acc' buf' got outs' ms', drain_fuel D fuel (mkNc false acc) buf = (mkNc false acc', buf', map DItem got, Waiting) /\
    outs = got ++ outs' /\ Forall message_ok ms' /\ want acc' ms' outs' /\ buf' ++ rest = rfc_stream ms' /\
    (forall r, ~ cut_in_end ms r -> ~ cut_in_end ms' r) /\ (rest = [] -> ms' = []).
Proof.
  induction n as [n IH] using (well_founded_induction lt_wf). intros buf acc ms outs fuel Hn Hf Hok Hw He Hcut.
  destruct fuel as [|fuel]; [lia|]. cbn [drain_fuel]. rewrite decode_run.
  destruct ms as [|cs ms].
  - destruct outs; [|contradiction]. cbn in Hw. subst acc. cbn in He. apply app_eq_nil in He. destruct He as [-> ->].
    cbn. exists [], [], [], [], []. repeat split; auto.
  - destruct outs as [|m outs]; [contradiction|]. destruct Hw as [Hm HF2]. inversion Hok as [|? ? Hcs Hok']. subst.
    assert (buf ++ rest = rfc_chunks cs ++ rfc_end ++ rfc_stream ms) as He'.
    { rewrite He. unfold rfc_stream. cbn [flat_map]. unfold rfc_message. rewrite <- app_assoc. reflexivity. }
    destruct (chunks_run rest ms m cs (S (length buf)) acc buf ltac:(lia) Hcs He') as
      [(acc' & cs' & buf' & H1 & H2 & H3 & H4 & H5)|(buf' & H1 & H2 & H3)].
    + intros t1 t2 Ht Hn2 Hr. apply Hcut. exists [], cs, ms, t1, t2. auto.
    + exact Hm.
    + rewrite H1. cbn [is_none]. exists acc', buf', [], (m :: outs), (cs' :: ms). split; [reflexivity|]. split; [reflexivity|].
      split; [constructor; assumption|]. split; [split; [rewrite H3; exact Hm|exact HF2]|]. split.
      { rewrite H4. unfold rfc_stream. cbn [flat_map]. unfold rfc_message. rewrite <- app_assoc. reflexivity. }
      split; [|contradiction]. intros r. apply cut_same.
    + rewrite H1. cbn [is_none halts].
      destruct (IH (length buf') ltac:(lia) buf' [] ms outs fuel (le_n _) ltac:(lia) Hok' (want_F2 _ _ HF2) H2 (cut_tail _ _ _ Hcut))
        as (acc2 & buf2 & got & outs2 & ms2 & G1 & G2 & G3 & G4 & G5 & G6 & G7).
      rewrite G1. exists acc2, buf2, (m :: got), outs2, ms2. split; [reflexivity|]. split; [cbn; congruence|].
      split; [exact G3|]. split; [exact G4|]. split; [exact G5|]. split; [|exact G7].
      intros r Hr. apply G6. eapply cut_tail. exact Hr.
Qed.

Lemma skipn_tail {A} k (x : A) xs : skipn (S k) (x :: xs) = skipn k xs. Proof. reflexivity. Qed.
Lemma feed_stream xs : forall buf acc ms outs done, Forall message_ok ms -> want acc ms outs ->
  buf ++ concat xs = rfc_stream ms -> safe_reads ms xs -> (xs = [] -> ms = []) ->
  feed_all D (mkConn (mkNc false acc) buf done Waiting) xs =
    mkConn (mkNc false []) [] (done ++ map DItem outs) Waiting.
Proof.
  induction xs as [|x xs IH]; intros buf acc ms outs done Hok Hw He Hs Hend.
  - rewrite (Hend eq_refl) in *. destruct outs; [|contradiction]. cbn in Hw. subst. cbn in He.
    apply app_eq_nil in He. destruct He as [-> _]. cbn. rewrite app_nil_r. reflexivity.
  - cbn [feed_all fold_left]. fold (feed_all D). cbn [concat] in He. rewrite app_assoc in He.
    assert (~ cut_in_end ms (concat xs)) as Hc by (apply (Hs 1%nat); lia).
    destruct (drain_stream (concat xs) _ (buf ++ x) acc ms outs (S (length (buf ++ x))) (le_n _) ltac:(lia) Hok Hw He Hc)
      as (acc2 & buf2 & got & outs2 & ms2 & G1 & G2 & G3 & G4 & G5 & G6 & G7).
    assert (feed D (mkConn (mkNc false acc) buf done Waiting) x = mkConn (mkNc false acc2) buf2 (done ++ map DItem got) Waiting) as Hfd.
    { unfold feed. cbn [c_status c_st c_buf c_out]. unfold drain. rewrite G1. reflexivity. }
    change (fold_left (feed D) xs (feed D (mkConn (mkNc false acc) buf done Waiting) x))
      with (feed_all D (feed D (mkConn (mkNc false acc) buf done Waiting) x) xs).
    rewrite Hfd, (IH buf2 acc2 ms2 outs2).
    + rewrite G2, map_app, app_assoc. reflexivity.
    + exact G3.
    + exact G4.
    + exact G5.
    + intros k Hk. apply G6. specialize (Hs (S k) ltac:(lia)). rewrite skipn_tail in Hs. exact Hs.
    + intros ->. apply G7. reflexivity.
Qed.

(* ---- hello ---- *)
Lemma find_at_app p l : find_at hello_term l = Some p -> take p l ++ hello_term ++ drop (p + 6) l = l /\ p + 6 <= blen l.
Proof using.
  clear. revert p. induction l as [|x l IH]; intros p H.
  - cbn in H. discriminate.
  - cbn [find_at] in H. destruct (starts_with hello_term (x :: l)) eqn:Hs.
    + injection H as <-. apply starts_with_inv in Hs. change (blen hello_term) with 6 in Hs. change (0 + 6) with 6.
      split; [symmetry; exact Hs|]. rewrite Hs, blen_app. change (blen hello_term) with 6. lia.
    + destruct (find_at hello_term l) as [q|]; [|discriminate]. injection H as <-. destruct (IH q eq_refl) as [H1 H2].
      rewrite blen_cons. split; [|lia]. unfold take, drop in *.
      replace (N.to_nat (q + 1)) with (S (N.to_nat q)) by lia. replace (N.to_nat (q + 1 + 6)) with (S (N.to_nat (q + 6))) by lia.
      cbn [firstn skipn app]. rewrite H1. reflexivity.
Qed.
Lemma find_at_none l pre post : find_at hello_term l = None -> l <> pre ++ hello_term ++ post.
Proof using.
  clear. revert pre. induction l as [|x l IH]; intros pre H He.
  - destruct pre; discriminate.
  - cbn [find_at] in H. destruct (starts_with hello_term (x :: l)) eqn:Hs; [discriminate|].
    destruct (find_at hello_term l) eqn:Hf; [discriminate|]. destruct pre as [|y pre].
    + rewrite He in Hs. cbn [app] in Hs. change (hello_term ++ post) with (hello_term ++ post) in Hs.
      assert (starts_with hello_term (hello_term ++ post) = true) by apply starts_with_app. congruence.
    + cbn [app] in He. injection He as -> He. exact (IH pre eq_refl He).
Qed.
Lemma find_hello p s : ends_hello p -> find_at hello_term (p ++ hello_term ++ s) = Some (blen p).
Proof using.
  clear. intros He. destruct (find_at hello_term (p ++ hello_term ++ s)) as [q|] eqn:Hf.
  2:{ exfalso. eapply find_at_none; [exact Hf|reflexivity]. }
  destruct (find_at_app q _ Hf) as [H1 H2]. f_equal.
  set (l := p ++ hello_term ++ s) in *. assert (blen (take q l) = q) as Lq by (apply blen_take; lia).
  (* the first occurrence is not later than the one we know *)
  destruct (N.lt_trichotomy q (blen p)) as [Hlt|[->|Hgt]]; [|reflexivity|].
  - exfalso. unfold l in H1 at 3. rewrite !app_assoc in H1. rewrite <- (app_assoc (take q l)) in H1.
    assert (((take q l ++ hello_term) ++ drop (q + 6) l) = (p ++ hello_term) ++ s) as H3 by (rewrite <- app_assoc; rewrite H1; reflexivity).
    destruct (app_cut _ _ _ _ H3) as [(_ & t & Ht & H4 & _)|(Hle & _)].
    + apply Ht. apply (He (take q l) t). rewrite <- app_assoc in H4. exact H4.
    + rewrite !app_length in Hle. unfold blen in *. lia.
  - exfalso. assert (forall a b, blen a < q -> l <> a ++ hello_term ++ b) as Hno.
    { clear -Hf. revert q Hf. induction l as [|x l IH]; intros q Hf a b Ha Hl.
      - destruct a; discriminate.
      - cbn [find_at] in Hf. destruct (starts_with hello_term (x :: l)) eqn:Hs.
        + injection Hf as <-. lia.
        + destruct (find_at hello_term l) as [q'|]; [|discriminate]. injection Hf as <-. destruct a as [|y a].
          * cbn [app] in Hl. rewrite Hl in Hs. assert (starts_with hello_term (hello_term ++ b) = true) by apply starts_with_app. congruence.
          * cbn [app] in Hl. injection Hl as -> Hl. rewrite blen_cons in Ha. apply (IH q' eq_refl a b); [lia|exact Hl]. }
    apply (Hno p s Hgt). reflexivity.
Qed.
Lemma find_hello_partial p l t : ends_hello p -> p ++ hello_term = l ++ t -> t <> [] -> find_at hello_term l = None.
Proof using.
  clear. intros He Hl Ht. destruct (find_at hello_term l) as [q|] eqn:Hf; [|reflexivity]. exfalso.
  destruct (find_at_app q _ Hf) as [H1 _]. rewrite <- H1 in Hl. rewrite <- !app_assoc in Hl.
  specialize (He _ _ Hl). apply app_eq_nil in He. destruct He. contradiction.
Qed.
Lemma decode_hello p h s : ends_hello p -> hello_of p = Some h -> base11 h = true ->
  D nc_new (p ++ hello_term ++ s) = (mkNc false [], s, DItem h).
Proof.
  intros He Hh Hb. unfold nc_decode. cbn [in_hello nc_new andb nc_buf].
  destruct (N.leb_spec (blen hello_term) (blen (p ++ hello_term ++ s))) as [_|Hx].
  2:{ rewrite !blen_app in Hx. lia. }
  rewrite find_hello by assumption. rewrite take_app_exact by reflexivity. rewrite Hh, Hb.
  rewrite app_assoc, advance_app by (rewrite blen_app; reflexivity). reflexivity.
Qed.
Lemma decode_hello_partial p l t : ends_hello p -> p ++ hello_term = l ++ t -> t <> [] -> D nc_new l = (nc_new, l, DNone).
Proof.
  intros He Hl Ht. unfold nc_decode. cbn [in_hello nc_new andb nc_buf].
  destruct (N.leb_spec (blen hello_term) (blen l)) as [_|Hx].
  - erewrite find_hello_partial by eassumption. reflexivity.
  - change (blen hello_term) with 6 in Hx. rewrite chunks_short by lia. reflexivity.
Qed.

Lemma feed_session p h : ends_hello p -> hello_of p = Some h -> base11 h = true ->
  forall xs buf ms outs, Forall message_ok ms -> Forall2 (fun cs m => msg_of (concat cs) = Some m) ms outs ->
  buf ++ concat xs = p ++ hello_term ++ rfc_stream ms -> safe_reads ms xs ->
  (length buf < length (p ++ hello_term))%nat ->
  feed_all D (mkConn nc_new buf [] Waiting) xs = mkConn (mkNc false []) [] (DItem h :: map DItem outs) Waiting.
Proof.
  intros Hp Hh Hb. induction xs as [|x xs IH]; intros buf ms outs Hok HF He Hs Hl.
  - cbn [concat] in He. rewrite app_nil_r in He. subst buf. rewrite !app_length in Hl. lia.
  - cbn [concat] in He. rewrite app_assoc in He. rewrite (app_assoc p) in He.
    change (feed_all D (mkConn nc_new buf [] Waiting) (x :: xs))
      with (feed_all D (feed D (mkConn nc_new buf [] Waiting) x) xs).
    destruct (app_cut _ _ _ _ He) as [(Hlt & t & Ht & H1 & H2)|(Hle & b2 & H1 & H2)].
    + assert (feed D (mkConn nc_new buf [] Waiting) x = mkConn nc_new (buf ++ x) [] Waiting) as ->.
      { unfold feed. cbn [c_status c_st c_buf c_out]. unfold drain. cbn [drain_fuel].
        rewrite (decode_hello_partial p _ t Hp H1 Ht). reflexivity. }
      apply (IH _ ms); auto.
      * rewrite He. rewrite <- app_assoc. reflexivity.
      * intros k Hk. specialize (Hs (S k) ltac:(lia)). exact Hs.
    + unfold feed. cbn [c_status c_st c_buf c_out]. unfold drain. cbn [drain_fuel]. rewrite H1. rewrite <- app_assoc.
      rewrite (decode_hello p h b2 Hp Hh Hb). cbn [is_none halts].
      assert (~ cut_in_end ms (concat xs)) as Hc by (apply (Hs 1%nat); lia).
      destruct (drain_stream (concat xs) _ b2 [] ms outs (length (p ++ hello_term ++ b2)) (le_n _)) as
        (acc2 & buf2 & got & outs2 & ms2 & G1 & G2 & G3 & G4 & G5 & G6 & G7); auto.
      { rewrite !app_length. cbn. lia. }
      { apply want_F2. exact HF. }
      rewrite G1. rewrite (feed_stream xs buf2 acc2 ms2 outs2); auto.
      * rewrite G2, map_app. reflexivity.
      * intros k Hk. apply G6. specialize (Hs (S k) ltac:(lia)). exact Hs.
      * intros ->. apply G7. reflexivity.
Qed.

(* ---- the end mark in a later read ---- *)
Lemma chunks_all t1 : blen t1 < 13 -> (forall r, t1 <> msg_term ++ r) -> forall cs fuel acc, (length (rfc_chunks cs ++ t1) < fuel)%nat ->
  Forall chunk_ok cs -> (exists cs' c, cs = cs' ++ [c] /\ 9 <= blen c) ->
  chunks fuel acc (rfc_chunks cs ++ t1) = (acc ++ concat cs, t1, DNone).
Proof.
  intros Ht Hne. induction cs as [|c cs IH]; intros fuel acc Hf HF (cs' & l & Hl & H9).
  { destruct cs'; discriminate. }
  inversion HF as [|? ? Hc HF']. subst. destruct fuel as [|fuel]; [lia|].
  unfold rfc_chunks. cbn [flat_map]. fold (rfc_chunks cs). rewrite <- app_assoc.
  assert (13 <= blen (rfc_chunk c ++ rfc_chunks cs ++ t1)) as H13.
  { replace (rfc_chunk c ++ rfc_chunks cs ++ t1) with (rfc_chunks (c :: cs) ++ t1).
    2:{ unfold rfc_chunks. cbn [flat_map]. rewrite <- app_assoc. reflexivity. }
    rewrite Hl. unfold rfc_chunks. rewrite flat_map_app. cbn [flat_map]. rewrite app_nil_r, !blen_app, rfc_chunk_len.
    pose proof (dec_len1 (blen l)). lia. }
  rewrite chunks_step by assumption. destruct cs as [|c2 cs].
  - cbn [rfc_chunks flat_map app concat]. rewrite app_nil_r.
    destruct (starts_with msg_term t1) eqn:Hs; [apply starts_with_inv in Hs; destruct (Hne _ Hs)|].
    apply chunks_short. exact Ht.
  - rewrite (not_end c2 _ []).
    2:{ right. eexists. unfold rfc_chunks. cbn [flat_map]. rewrite app_nil_r, <- app_assoc. reflexivity. }
    rewrite IH.
    + cbn [concat]. rewrite <- app_assoc. reflexivity.
    + pose proof (rfc_chunk_len c). assert (length (rfc_chunk c) > 0)%nat by (unfold blen in *; lia).
      unfold rfc_chunks in Hf. cbn [flat_map] in Hf. fold (rfc_chunks (c2 :: cs)) in Hf.
      rewrite !app_length in Hf. unfold rfc_chunks. cbn [flat_map]. rewrite !app_length in *. lia.
    + exact HF'.
    + destruct cs' as [|? cs']; cbn in Hl; [discriminate|]. injection Hl as -> Hl. exists cs', l. auto.
Qed.
(* a buffer that starts with the end mark only is never decoded *)
Lemma decode_end acc src y : (exists z, src ++ y = msg_term ++ z) ->
  D (mkNc false acc) src = (mkNc false acc, src, if blen src <? 13 then DNone else DErr BadSizeText).
Proof.
  intros (z & Hz). unfold nc_decode. cbn [in_hello andb nc_buf].
  destruct (N.ltb_spec (blen src) 13) as [Hl|Hl].
  - rewrite chunks_short by assumption. reflexivity.
  - destruct (app_cut _ _ _ _ Hz) as [(Hlt & _)|(_ & t & -> & _)].
    { cbn in Hlt. unfold blen in Hl. lia. }
    cbn [NcModel.chunks]. change (blen chunk_mark + max_chunk_len + 1) with 13.
    destruct (N.ltb_spec (blen (msg_term ++ t)) 13); [lia|].
    change (msg_term ++ t) with (chunk_mark ++ [35; 10] ++ t) at 1. rewrite starts_with_app. cbn [negb].
    change (blen chunk_mark) with 2. change (2 + max_chunk_len + 1) with 13. rewrite slice_ok by lia.
    replace (position 10 (take (13 - 2) (drop 2 (msg_term ++ t)))) with (Some 1) by reflexivity.
    rewrite slice_ok by lia. reflexivity.
Qed.
Lemma feed_end xs : forall acc src out st, st = Waiting \/ st = Halted -> (exists z, src ++ concat xs = msg_term ++ z) ->
  (st = Waiting -> blen src < 13) ->
  exists c, feed_all D (mkConn (mkNc false acc) src out st) xs = c /\ nc_items (c_out c) = nc_items out /\
    c_status c = (match st with Waiting => if blen (src ++ concat xs) <? 13 then Waiting else Halted | s => s end).
Proof.
  induction xs as [|x xs IH]; intros acc src out st Hst Hz Hw.
  - eexists. split; [reflexivity|]. split; [reflexivity|]. cbn. rewrite app_nil_r. destruct Hst as [->| ->]; [|reflexivity].
    destruct (N.ltb_spec (blen src) 13); [reflexivity|]. specialize (Hw eq_refl). lia.
  - change (feed_all D (mkConn (mkNc false acc) src out st) (x :: xs)) with (feed_all D (feed D (mkConn (mkNc false acc) src out st) x) xs).
    cbn [concat] in *. destruct Hst as [->| ->].
    + assert (exists z, (src ++ x) ++ concat xs = msg_term ++ z) as Hz' by (destruct Hz as [z Hz]; exists z; rewrite <- Hz, app_assoc; reflexivity).
      unfold feed. cbn [c_status c_st c_buf c_out]. unfold drain. cbn [drain_fuel]. rewrite (decode_end acc (src ++ x) (concat xs) Hz').
      destruct (N.ltb_spec (blen (src ++ x)) 13) as [Hl|Hl]; cbn [is_none halts].
      * destruct (IH acc (src ++ x) (out ++ []) Waiting (or_introl eq_refl) Hz' (fun _ => Hl)) as (c & -> & H1 & H2).
        exists c. split; [reflexivity|]. rewrite app_nil_r in H1. rewrite app_assoc. auto.
      * destruct (IH acc (src ++ x) (out ++ [DErr BadSizeText]) Halted (or_intror eq_refl) Hz' ltac:(discriminate)) as (c & -> & H1 & H2).
        exists c. split; [reflexivity|]. split.
        { rewrite H1. unfold nc_items. rewrite flat_map_app. cbn. apply app_nil_r. }
        rewrite H2. destruct (N.ltb_spec (blen (src ++ x ++ concat xs)) 13) as [Hq|]; [|reflexivity].
        rewrite !blen_app in *. lia.
    + unfold feed at 1. cbn [c_status c_st c_buf c_out].
      destruct (IH acc (src ++ x) out Halted (or_intror eq_refl)) as (c & H0 & H1 & H2).
      { destruct Hz as [z Hz]. exists z. rewrite <- Hz, <- app_assoc. reflexivity. }
      { discriminate. }
      exists c. auto.
Qed.
(* every answer other than "need more" and errors consumes input, and nothing panics *)
Lemma position_lt x l p : position x l = Some p -> p < blen l.
Proof using.
  clear. revert p. induction l as [|y l IH]; intros p H; cbn [position] in H; [discriminate|]. rewrite blen_cons.
  destruct (y =? x); [injection H as <-; lia|]. destruct (position x l) as [q|]; [|discriminate]. injection H as <-.
  specialize (IH q eq_refl). lia.
Qed.
Definition okans (b b' : list N) (o : dout M nc_err) : Prop :=
  (length b' <= length b)%nat /\ o <> DPanic /\ (forall m, o = DItem m -> (length b' < length b)%nat).
Lemma okans_err b b' e : (length b' <= length b)%nat -> okans b b' (DErr e).
Proof. intros H. split; [exact H|]. split; [discriminate|intros ? Hx; discriminate Hx]. Qed.
Lemma okans_none b : okans b b DNone.
Proof. split; [lia|]. split; [discriminate|intros ? Hx; discriminate Hx]. Qed.
Lemma chunks_safe fuel : forall acc src acc' src' o, chunks fuel acc src = (acc', src', o) -> okans src src' o.
Proof.
  induction fuel as [|f IH]; intros acc src acc' src' o H; cbn [NcModel.chunks] in H.
  { injection H as <- <- <-. apply okans_none. }
  change (blen chunk_mark) with 2 in H. change (2 + max_chunk_len + 1) with 13 in H.
  destruct (N.ltb_spec (blen src) 13) as [|H13]. { injection H as <- <- <-. apply okans_none. }
  destruct (starts_with chunk_mark src); cbn [negb] in H. 2:{ injection H as <- <- <-. apply okans_err. lia. }
  rewrite slice_ok in H by lia. destruct (position 10 (take (13 - 2) (drop 2 src))) as [p|] eqn:Hp.
  2:{ injection H as <- <- <-. apply okans_err. lia. }
  apply position_lt in Hp. rewrite blen_take in Hp by (rewrite blen_drop; lia).
  rewrite slice_ok in H by lia. destruct (parse_usize _) as [n|]. 2:{ injection H as <- <- <-. apply okans_err. lia. }
  destruct ((n =? 0) || (max_chunk <? n)). { injection H as <- <- <-. apply okans_err. lia. }
  destruct (N.ltb_spec (blen src) (2 + p + 1 + n)) as [|Hl]. { injection H as <- <- <-. apply okans_none. }
  rewrite slice_ok in H by lia. rewrite advance_ok in H by lia.
  assert (length (drop (2 + p + 1 + n) src) < length src)%nat as Hd.
  { unfold drop. rewrite skipn_length. unfold blen in *. lia. }
  destruct (starts_with msg_term _) eqn:Hs.
  - destruct (msg_of _). 2:{ injection H as <- <- <-. apply okans_err. lia. }
    apply starts_with_inv in Hs. rewrite Hs in H. rewrite advance_app in H by reflexivity. injection H as <- <- <-.
    assert (length (drop (blen msg_term) (drop (2 + p + 1 + n) src)) < length src)%nat.
    { unfold drop in *. rewrite !skipn_length in *. lia. }
    split; [lia|]. split; [discriminate|auto].
  - destruct (IH _ _ _ _ _ H) as (H1 & H2 & H3). split; [lia|]. split; [exact H2|]. intros m' Hm. specialize (H3 m' Hm). lia.
Qed.
Lemma decode_safe s b s' b' o : D s b = (s', b', o) -> okans b b' o.
Proof.
  unfold nc_decode. destruct (in_hello s && (blen hello_term <=? blen b)) eqn:Hc.
  - apply andb_true_iff in Hc. destruct Hc as [_ Hc]. apply N.leb_le in Hc. change (blen hello_term) with 6 in *.
    destruct (find_at hello_term b) as [p|] eqn:Hf.
    + apply find_at_app in Hf. destruct Hf as [_ Hf]. rewrite advance_ok by lia.
      assert (length (drop (p + 6) b) < length b)%nat.
      { unfold drop. rewrite skipn_length. unfold blen in *. lia. }
      destruct (hello_of (take p b)) as [h|].
      * destruct (base11 h); intros H0; injection H0 as <- <- <-.
        { split; [lia|]. split; [discriminate|auto]. }
        { apply okans_err. lia. }
      * intros H0; injection H0 as <- <- <-. apply okans_err. lia.
    + intros H; injection H as <- <- <-. apply okans_none.
  - destruct (chunks (S (length b)) (nc_buf s) b) as [[acc src'] o'] eqn:Hk. intros H. injection H as <- <- <-.
    eapply chunks_safe. exact Hk.
Qed.
Lemma drain_ok fuel : forall s b, (length b < fuel)%nat -> exists s' b' os st, drain_fuel D fuel s b = (s', b', os, st) /\
  st <> Looping /\ ~ In DPanic os.
Proof.
  induction fuel as [|f IH]; intros s b Hf; [lia|]. cbn [drain_fuel]. destruct (D s b) as [[s' b'] o] eqn:Hd.
  destruct (decode_safe _ _ _ _ _ Hd) as (H1 & H2 & H3). destruct o as [|i|e|]; cbn [is_none halts].
  - exists s', b', [], Waiting. repeat split; [discriminate|auto].
  - destruct (IH s' b' ltac:(specialize (H3 i eq_refl); lia)) as (s2 & b2 & os & st & -> & G1 & G2).
    exists s2, b2, (DItem i :: os), st. repeat split; [exact G1|]. intros [H|H]; [discriminate|auto].
  - exists s', b', [DErr e], Halted. repeat split; [discriminate|]. intros [H|[]]. discriminate.
  - congruence.
Qed.
Lemma feed_ok1 c x : c_status c <> Looping -> ~ In DPanic (c_out c) ->
  c_status (feed D c x) <> Looping /\ ~ In DPanic (c_out (feed D c x)).
Proof.
  intros H1 H2. unfold feed. destruct (c_status c) eqn:Hs; [|split; [discriminate|exact H2]|congruence].
  unfold drain. destruct (drain_ok (S (length (c_buf c ++ x))) (c_st c) (c_buf c ++ x) ltac:(lia)) as (s' & b' & os & st & -> & G1 & G2).
  split; [exact G1|]. cbn [c_out]. intros Hi. apply in_app_or in Hi. tauto.
Qed.
Lemma feed_ok xs : forall c, c_status c <> Looping -> ~ In DPanic (c_out c) ->
  c_status (feed_all D c xs) <> Looping /\ ~ In DPanic (c_out (feed_all D c xs)).
Proof.
  induction xs as [|x xs IH]; intros c H1 H2; [auto|].
  change (feed_all D c (x :: xs)) with (feed_all D (feed D c x) xs). destruct (feed_ok1 c x H1 H2). apply IH; assumption.
Qed.
End Codec.
