From Verif Require Import Base BaseLemmas ReaderSpec.

Lemma positional_be_val l : positional l = be_val l.
Proof.
  induction l as [|b l IH]; [reflexivity|]. cbn [positional]. rewrite be_val_cons, IH. reflexivity.
Qed.

(* One read, in the middle of a buffer. *)
Lemma read_bytes_ok pre data post :
  read_bytes (blen data) (mkR (data ++ post) (blen pre)) =
  (mkR post (blen (pre ++ data)), Ok data).
Proof. rewrite blen_app. apply (parses_bytes data _ eq_refl). Qed.

Lemma read_bytes_fail n r r' e :
  read_bytes n r = (r', Err e) ->
  r' = r /\ remaining r < n /\ e = Eof (roff r) n (remaining r).
Proof.
  unfold read_bytes, remaining. destruct (blen (rbuf r) <? n) eqn:Hb; intros H; inversion H; subst.
  repeat split; lia.
Qed.
Lemma read_bytes_total n r :
  (exists b, read_bytes n r = (mkR (drop n (rbuf r)) (roff r + n), Ok b) /\
             rbuf r = b ++ drop n (rbuf r) /\ blen b = n) \/
  (remaining r < n /\ read_bytes n r = (r, Err (Eof (roff r) n (remaining r)))).
Proof.
  unfold read_bytes, remaining. destruct (blen (rbuf r) <? n) eqn:Hb.
  - right. split; [lia|reflexivity].
  - left. exists (take n (rbuf r)). split; [reflexivity|]. split.
    + symmetry; apply take_drop.
    + apply blen_take; lia.
Qed.

(* A sequence of reads of the given lengths, stopping at the first error. *)
Fixpoint read_seq (ns : list N) (r : reader) : reader * res perr (list (list N)) :=
  match ns with
  | [] => (r, Ok [])
  | n :: ns' => (do b <- read_bytes n;; do bs <- read_seq ns';; ret (b :: bs)) r
  end.

Lemma read_seq_cover ns r r' bs :
  read_seq ns r = (r', Ok bs) ->
  rbuf r = concat bs ++ rbuf r' /\ map blen bs = ns /\ roff r' = roff r + blen (concat bs).
Proof.
  revert r r' bs; induction ns as [|n ns IH]; intros r r' bs H; cbn [read_seq] in H.
  - inversion H; subst. cbn [concat map app]. rewrite blen_nil. repeat split. lia.
  - unfold bind at 1 in H.
    destruct (read_bytes_total n r) as [[b [Hr [Hb Hl]]]|[Hlt Hr]]; rewrite Hr in H; [|discriminate].
    unfold bind in H.
    destruct (read_seq ns _) as [r1 [bs1|e| |]] eqn:Hs; try discriminate.
    unfold ret in H. inversion H; subst r' bs; clear H.
    apply IH in Hs. cbn [rbuf roff] in Hs. destruct Hs as [H1 [H2 H3]].
    cbn [concat map]. rewrite <- app_assoc, <- H1, H2, H3, blen_app, Hl. repeat split; [exact Hb|lia].
Qed.

(* ---- reduced-size integers ---- *)
Lemma read_be_spec data post off :
  read_be (blen data) (mkR (data ++ post) off) = (mkR post (off + blen data), Ok (positional data)).
Proof. rewrite positional_be_val. apply parses_be_raw; reflexivity. Qed.

Lemma le8_cases (n : N) : n <= 8 ->
  n = 0 \/ n = 1 \/ n = 2 \/ n = 3 \/ n = 4 \/ n = 5 \/ n = 6 \/ n = 7 \/ n = 8.
Proof. lia. Qed.

Lemma unsigned64_spec data post off : blen data <= 8 ->
  read_unsigned64_be (blen data) (mkR (data ++ post) off)
  = (mkR post (off + blen data), Ok (positional data)).
Proof.
  intros H. assert (Hr := read_be_spec data post off).
  destruct (le8_cases _ H) as [E|Hc].
  - apply blen_0_nil in E; subst data. rewrite blen_nil, N.add_0_r. reflexivity.
  - repeat destruct Hc as [E|Hc]; try rename Hc into E; rewrite E in *; exact Hr.
Qed.
Lemma unsigned32_spec data post off : blen data <= 4 ->
  read_unsigned32_be (blen data) (mkR (data ++ post) off)
  = (mkR post (off + blen data), Ok (positional data)).
Proof.
  intros H. assert (Hr := read_be_spec data post off).
  assert (Hc : blen data = 0 \/ blen data = 1 \/ blen data = 2 \/ blen data = 3 \/ blen data = 4) by lia.
  destruct Hc as [E|Hc].
  - apply blen_0_nil in E; subst data. rewrite blen_nil, N.add_0_r. reflexivity.
  - repeat destruct Hc as [E|Hc]; try rename Hc into E; rewrite E in *; exact Hr.
Qed.

Lemma unsigned_too_wide64 n r : 8 < n -> read_unsigned64_be n r = (r, Err (BadPadding (roff r) n 8)).
Proof.
  intros H. unfold read_unsigned64_be.
  destruct n as [|p]; [lia|].
  do 4 (destruct p as [p|p|]; try lia; try reflexivity).
Qed.
Lemma unsigned_too_wide32 n r : 4 < n -> read_unsigned32_be n r = (r, Err (BadPadding (roff r) n 4)).
Proof.
  intros H. unfold read_unsigned32_be.
  destruct n as [|p]; [lia|].
  do 3 (destruct p as [p|p|]; try lia; try reflexivity).
Qed.

Lemma unsigned_short64 n r : n <= 8 -> remaining r < n ->
  read_unsigned64_be n r = (r, Err (Eof (roff r) n (remaining r))).
Proof.
  intros Hn Hr.
  assert (Hb : read_be n r = (r, Err (Eof (roff r) n (remaining r)))).
  { unfold read_be, bind. destruct (read_bytes_total n r) as [[b [H1 [H2 H3]]]|[H1 H2]].
    - exfalso. unfold remaining in Hr. rewrite H2, blen_app, H3 in Hr. lia.
    - now rewrite H2. }
  destruct (le8_cases _ Hn) as [E|Hc]; [lia|].
  repeat destruct Hc as [E|Hc]; try rename Hc into E; rewrite E in *; exact Hb.
Qed.

(* Sign extension, for a k-octet value u (1 <= k <= W/8). *)
Lemma sign_extend (w k u : N) :
  (w = 32 /\ 1 <= k <= 4 \/ w = 64 /\ 1 <= k <= 8) -> u < 256 ^ k ->
  let s := w - 8 * k in
  shr_signed (shl_signed w (to_signed w u) s) s =
  if u <? 128 * 256 ^ (k - 1) then Z.of_N u else (Z.of_N u - 256 ^ Z.of_N k)%Z.
Proof.
  intros Hwk Hu s. subst s.
  unfold shr_signed, shl_signed, to_signed, of_signed.
  rewrite Z.shiftr_div_pow2 by lia. rewrite Z.shiftl_mul_pow2 by lia.
  assert (Hc : (w = 32 /\ (k = 1 \/ k = 2 \/ k = 3 \/ k = 4)) \/
               (w = 64 /\ (k = 1 \/ k = 2 \/ k = 3 \/ k = 4 \/ k = 5 \/ k = 6 \/ k = 7 \/ k = 8))) by lia.
  destruct Hc as [[-> Hc]|[-> Hc]]; repeat destruct Hc as [Hc|Hc]; subst k;
  match type of Hu with _ < ?a => let c := eval vm_compute in a in change a with c in * end;
  repeat match goal with
  | |- context [(2 ^ ?e)%Z] => let c := eval vm_compute in (2 ^ e)%Z in change (2 ^ e)%Z with c
  | |- context [(256 ^ ?e)%Z] => let c := eval vm_compute in (256 ^ e)%Z in change (256 ^ e)%Z with c
  | |- context [128 * 256 ^ ?e] => let c := eval vm_compute in (128 * 256 ^ e) in change (128 * 256 ^ e) with c
  | |- context [2 ^ ?e] => let c := eval vm_compute in (2 ^ e) in change (2 ^ e) with c
  end;
  match goal with |- context [if ?b then Z.of_N u else (Z.of_N u - _)%Z] => destruct b eqn:? end;
  match goal with |- context [if ?b then _ else _] => destruct b eqn:? end;
  try (match goal with |- context [(?x mod ?m)%Z] => 
         first [rewrite (Z.mod_small x m) by lia
               | replace (x mod m)%Z with (x + m)%Z by (apply Z.mod_unique with (-1)%Z; lia)] end);
  repeat match goal with |- context [if ?b then _ else _] => destruct b eqn:? end; lia.
Qed.

Lemma twos_complement_alt data : bytes_ok data = true -> data <> [] ->
  twos_complement data =
  if positional data <? 128 * 256 ^ (blen data - 1) then Z.of_N (positional data)
  else (Z.of_N (positional data) - 256 ^ Z.of_N (blen data))%Z.
Proof.
  intros Hok Hne. destruct data as [|b l]; [congruence|].
  unfold twos_complement. rewrite blen_cons.
  replace (1 + blen l - 1) with (blen l) by lia.
  replace (Z.of_N (1 + blen l)) with (Z.of_nat (length (b :: l))) by (unfold blen; cbn [length]; lia).
  rewrite bytes_ok_cons in Hok. apply andb_true_iff in Hok as [Hb Hl].
  cbn [positional]. fold (blen l). rewrite positional_be_val.
  assert (Hv := be_val_bound l Hl).
  destruct (b <? 128) eqn:Hb1.
  - replace (_ <? _) with true; [reflexivity|]. symmetry; apply N.ltb_lt. nia.
  - replace (_ <? _) with false; [reflexivity|]. symmetry; apply N.ltb_ge. nia.
Qed.

Lemma signed64_spec data post off : bytes_ok data = true -> blen data <= 8 ->
  read_signed64_be (blen data) (mkR (data ++ post) off)
  = (mkR post (off + blen data), Ok (twos_complement data)).
Proof.
  intros Hok Hl. unfold read_signed64_be, bind. rewrite unsigned64_spec by assumption.
  unfold ret. f_equal. f_equal.
  destruct (N.eq_dec (blen data) 0) as [E|E].
  - rewrite E. apply blen_0_nil in E; subst data. reflexivity.
  - rewrite twos_complement_alt; [|assumption|intros ->; now rewrite blen_nil in E].
    assert (Hs : N.land ((8 - blen data) * 8) 63 = 64 - 8 * blen data).
    { destruct (le8_cases _ Hl) as [H|H]; [lia|].
      repeat destruct H as [H|H]; rewrite H; reflexivity. }
    rewrite Hs. apply sign_extend; [right; split; lia|].
    rewrite positional_be_val. now apply be_val_bound.
Qed.
Lemma signed32_spec data post off : bytes_ok data = true -> blen data <= 4 ->
  read_signed32_be (blen data) (mkR (data ++ post) off)
  = (mkR post (off + blen data), Ok (twos_complement data)).
Proof.
  intros Hok Hl. unfold read_signed32_be, bind. rewrite unsigned32_spec by assumption.
  unfold ret. f_equal. f_equal.
  destruct (N.eq_dec (blen data) 0) as [E|E].
  - rewrite E. apply blen_0_nil in E; subst data. reflexivity.
  - rewrite twos_complement_alt; [|assumption|intros ->; now rewrite blen_nil in E].
    assert (Hs : N.land ((4 - blen data) * 8) 31 = 32 - 8 * blen data).
    { assert (H : blen data = 1 \/ blen data = 2 \/ blen data = 3 \/ blen data = 4) by lia.
      repeat destruct H as [H|H]; rewrite H; reflexivity. }
    rewrite Hs. apply sign_extend; [left; split; lia|].
    rewrite positional_be_val. now apply be_val_bound.
Qed.
Lemma signed_too_wide64 n r : 8 < n -> read_signed64_be n r = (r, Err (BadPadding (roff r) n 8)).
Proof. intros H. unfold read_signed64_be, bind. now rewrite unsigned_too_wide64. Qed.

Lemma take_slice_spec pre data post :
  take_slice (blen data) (mkR (data ++ post) (blen pre)) =
  (mkR post (blen (pre ++ data)), Ok (mkR data (blen pre))).
Proof. unfold take_slice. now rewrite read_bytes_ok. Qed.
Lemma take_slice_fail n r : remaining r < n ->
  take_slice n r = (r, Err (Eof (roff r) n (remaining r))).
Proof.
  intros H. unfold take_slice. destruct (read_bytes_total n r) as [[b [_ [H2 H3]]]|[_ H2]].
  - exfalso. unfold remaining in H. rewrite H2, blen_app in H. lia.
  - now rewrite H2.
Qed.
