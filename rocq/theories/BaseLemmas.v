(* Lemmas about Base.v used by all proof files. *)
From Verif Require Import Base.

(* ---------------- lists ---------------- *)
Lemma blen_nil {A} : blen (@nil A) = 0. Proof. reflexivity. Qed.
Lemma blen_cons {A} (x : A) l : blen (x :: l) = 1 + blen l.
Proof. unfold blen; cbn [length]; lia. Qed.
Lemma blen_app {A} (a b : list A) : blen (a ++ b) = blen a + blen b.
Proof. unfold blen; rewrite app_length; lia. Qed.
Lemma blen_map {A B} (f : A -> B) l : blen (map f l) = blen l.
Proof. unfold blen; rewrite map_length; reflexivity. Qed.
Lemma blen_repeat {A} (x : A) n : blen (repeat x n) = N.of_nat n.
Proof. unfold blen; rewrite repeat_length; reflexivity. Qed.
Lemma blen_0_nil {A} (l : list A) : blen l = 0 -> l = [].
Proof. destruct l; [reflexivity|rewrite blen_cons; lia]. Qed.
Lemma take_app_exact {A} (a b : list A) n : n = blen a -> take n (a ++ b) = a.
Proof.
  intros ->; unfold take, blen. rewrite Nat2N.id.
  rewrite firstn_app, Nat.sub_diag, firstn_O, app_nil_r. apply firstn_all.
Qed.
Lemma drop_app_exact {A} (a b : list A) n : n = blen a -> drop n (a ++ b) = b.
Proof.
  intros ->; unfold drop, blen. rewrite Nat2N.id.
  rewrite skipn_app, Nat.sub_diag, skipn_O, skipn_all. reflexivity.
Qed.
Lemma take_all {A} (a : list A) n : n = blen a -> take n a = a.
Proof. intros H. rewrite <- (app_nil_r a) at 1. now apply take_app_exact. Qed.
Lemma drop_all {A} (a : list A) n : n = blen a -> drop n a = [].
Proof. intros H. rewrite <- (app_nil_r a). now apply drop_app_exact. Qed.
Lemma take_drop {A} n (l : list A) : take n l ++ drop n l = l.
Proof. apply firstn_skipn. Qed.
Lemma blen_take {A} n (l : list A) : n <= blen l -> blen (take n l) = n.
Proof. unfold blen, take; intros; rewrite firstn_length; lia. Qed.
Lemma blen_take_le {A} n (l : list A) : blen (take n l) <= blen l.
Proof. unfold blen, take; intros; rewrite firstn_length; lia. Qed.
Lemma blen_drop {A} n (l : list A) : blen (drop n l) = blen l - n.
Proof. unfold blen, drop; rewrite skipn_length; lia. Qed.
Lemma take_0 {A} (l : list A) : take 0 l = []. Proof. reflexivity. Qed.
Lemma drop_0 {A} (l : list A) : drop 0 l = l. Proof. reflexivity. Qed.
Lemma drop_app_le {A} n (a b : list A) : n <= blen a -> drop n (a ++ b) = drop n a ++ b.
Proof.
  unfold drop, blen; intros H. rewrite skipn_app.
  replace (N.to_nat n - length a)%nat with 0%nat by lia. reflexivity.
Qed.
Lemma take_app_le {A} n (a b : list A) : n <= blen a -> take n (a ++ b) = take n a.
Proof.
  unfold take, blen; intros H. rewrite firstn_app.
  replace (N.to_nat n - length a)%nat with 0%nat by lia. cbn. apply app_nil_r.
Qed.
Lemma drop_drop {A} n m (l : list A) : drop n (drop m l) = drop (n + m) l.
Proof.
  unfold drop. rewrite N2Nat.inj_add.
  generalize (N.to_nat n) (N.to_nat m); intros a b. revert l.
  induction b as [|b IH]; intros l.
  - rewrite Nat.add_0_r. reflexivity.
  - rewrite Nat.add_succ_r. destruct l; [now rewrite !skipn_nil|]. cbn [skipn]. apply IH.
Qed.
Lemma app_split_at {A} (l : list A) n : n <= blen l ->
  exists a b, l = a ++ b /\ blen a = n.
Proof.
  intros H; exists (take n l), (drop n l); split; [symmetry; apply take_drop|now apply blen_take].
Qed.

(* ---------------- bytes ---------------- *)
Lemma bytes_ok_app a b : bytes_ok (a ++ b) = bytes_ok a && bytes_ok b.
Proof. apply forallb_app. Qed.
Lemma bytes_ok_cons x l : bytes_ok (x :: l) = (x <? 256) && bytes_ok l.
Proof. reflexivity. Qed.
Lemma bytes_ok_In l b : bytes_ok l = true -> In b l -> b < 256.
Proof.
  unfold bytes_ok; intros H Hi. rewrite forallb_forall in H.
  apply H in Hi. unfold byte_ok in Hi. lia.
Qed.
Lemma bytes_ok_take n l : bytes_ok l = true -> bytes_ok (take n l) = true.
Proof.
  intros H. rewrite <- (take_drop n l) in H. rewrite bytes_ok_app in H.
  apply andb_true_iff in H; tauto.
Qed.
Lemma bytes_ok_drop n l : bytes_ok l = true -> bytes_ok (drop n l) = true.
Proof.
  intros H. rewrite <- (take_drop n l) in H. rewrite bytes_ok_app in H.
  apply andb_true_iff in H; tauto.
Qed.
Lemma bytes_ok_repeat0 n : bytes_ok (repeat 0 n) = true.
Proof. induction n; cbn; auto. Qed.

(* ---------------- big endian ---------------- *)
Lemma be_val_acc l a : fold_left (fun a b => a * 256 + b) l a = a * 256 ^ blen l + be_val l.
Proof.
  unfold be_val. revert a; induction l as [|x l IH]; intros a; cbn [fold_left].
  - rewrite blen_nil. cbn. lia.
  - rewrite IH, (IH (0 * 256 + x)), blen_cons, N.pow_add_r. change (256 ^ 1) with 256. nia.
Qed.
Lemma be_val_nil : be_val [] = 0. Proof. reflexivity. Qed.
Lemma be_val_cons x l : be_val (x :: l) = x * 256 ^ blen l + be_val l.
Proof. unfold be_val at 1. cbn [fold_left]. rewrite be_val_acc. lia. Qed.
Lemma be_val_app a b : be_val (a ++ b) = be_val a * 256 ^ blen b + be_val b.
Proof. unfold be_val at 1. rewrite fold_left_app. apply be_val_acc. Qed.
Lemma be_val_bound l : bytes_ok l = true -> be_val l < 256 ^ blen l.
Proof.
  induction l as [|x l IH]; intros H; [cbn; lia|].
  rewrite bytes_ok_cons in H. apply andb_true_iff in H as [Hx Hl].
  rewrite be_val_cons, blen_cons, N.pow_add_r. change (256 ^ 1) with 256.
  specialize (IH Hl). nia.
Qed.
Lemma be_val_repeat0 n : be_val (repeat 0 n) = 0.
Proof. induction n as [|n IH]; [reflexivity|]. cbn [repeat]. rewrite be_val_cons, IH. lia. Qed.

Lemma be_enc_length k v : length (be_enc k v) = k.
Proof. revert v; induction k as [|k IH]; intros v; cbn [be_enc]; [reflexivity|].
  rewrite app_length, IH. cbn; lia. Qed.
Lemma be_enc_blen k v : blen (be_enc k v) = N.of_nat k.
Proof. unfold blen; now rewrite be_enc_length. Qed.
Lemma be_enc_ok k v : bytes_ok (be_enc k v) = true.
Proof.
  revert v; induction k as [|k IH]; intros v; cbn [be_enc]; [reflexivity|].
  rewrite bytes_ok_app, IH. unfold bytes_ok, byte_ok; cbn [forallb]. 
  assert (v mod 256 < 256) by lia. apply N.ltb_lt in H. rewrite H. reflexivity.
Qed.
Lemma be_val_enc_mod k v : be_val (be_enc k v) = v mod 256 ^ N.of_nat k.
Proof.
  revert v; induction k as [|k IH]; intros v; cbn [be_enc].
  - cbn. now rewrite N.mod_1_r.
  - rewrite be_val_app, IH. change (256 ^ blen [v mod 256]) with 256.
    rewrite be_val_cons, be_val_nil. change (256 ^ blen (@nil N)) with 1.
    replace (N.of_nat (S k)) with (1 + N.of_nat k) by lia.
    rewrite N.pow_add_r. change (256 ^ 1) with 256.
    rewrite (N.mod_mul_r v 256 (256 ^ N.of_nat k)); [lia|lia|]. 
    apply N.pow_nonzero; lia.
Qed.
Lemma be_val_enc k v : v < 256 ^ N.of_nat k -> be_val (be_enc k v) = v.
Proof. intros H; rewrite be_val_enc_mod. now apply N.mod_small. Qed.
Lemma be_enc_val l : bytes_ok l = true -> be_enc (length l) (be_val l) = l.
Proof.
  induction l as [|x l IH] using rev_ind; intros H; [reflexivity|].
  rewrite bytes_ok_app in H. apply andb_true_iff in H as [Hl Hx].
  cbn in Hx. apply andb_true_iff in Hx as [Hx _]. unfold byte_ok in Hx.
  rewrite app_length. cbn [length]. rewrite Nat.add_1_r. cbn [be_enc].
  rewrite be_val_app, be_val_cons, be_val_nil.
  change (256 ^ blen [x]) with 256. change (256 ^ blen (@nil N)) with 1.
  replace ((be_val l * 256 + (x * 1 + 0)) / 256) with (be_val l) by lia.
  replace ((be_val l * 256 + (x * 1 + 0)) mod 256) with x by lia.
  now rewrite IH.
Qed.
Lemma be_val_inj a b : bytes_ok a = true -> bytes_ok b = true -> length a = length b ->
  be_val a = be_val b -> a = b.
Proof.
  intros Ha Hb Hl Hv. rewrite <- (be_enc_val a Ha), <- (be_enc_val b Hb), Hl, Hv. reflexivity.
Qed.
Lemma be_enc_1 v : v < 256 -> be_enc 1 v = [v].
Proof. intros; cbn. f_equal. now apply N.mod_small. Qed.
Lemma be_enc_2 v : be_enc 2 v = [(v / 256) mod 256; v mod 256].
Proof. reflexivity. Qed.

(* ---------------- compositional round-trip reasoning ---------------- *)
(* [parses p b x]: started on b followed by anything, p consumes exactly b
   and returns x. *)
Definition parses {E A} (p : parser E A) (b : list N) (x : A) : Prop :=
  forall rest off, p (mkR (b ++ rest) off) = (mkR rest (off + blen b), Ok x).
(* [parses_end p b x]: the same when b is the whole remaining buffer. *)
Definition parses_end {E A} (p : parser E A) (b : list N) (x : A) : Prop :=
  forall off, p (mkR b off) = (mkR [] (off + blen b), Ok x).

Lemma parses_to_end {E A} (p : parser E A) b x : parses p b x -> parses_end p b x.
Proof. intros H off. rewrite <- (H [] off), app_nil_r. reflexivity. Qed.

Lemma parses_ret {E A} (x : A) : parses (@ret E A x) [] x.
Proof. intros rest off. unfold ret; cbn. f_equal. f_equal. rewrite blen_nil; lia. Qed.
Lemma parses_bind {E A B} (p : parser E A) (f : A -> parser E B) b1 b2 x y :
  parses p b1 x -> parses (f x) b2 y -> parses (bind p f) (b1 ++ b2) y.
Proof.
  intros H1 H2 rest off. unfold bind. rewrite <- app_assoc, H1, H2.
  f_equal. f_equal. rewrite blen_app; lia.
Qed.
Lemma parses_bind0 {E A B} (p : parser E A) (f : A -> parser E B) b x y :
  parses p [] x -> parses (f x) b y -> parses (bind p f) b y.
Proof. intros; change b with ([] ++ b); eapply parses_bind; eauto. Qed.
Lemma parses_bind_ret {E A B} (p : parser E A) (f : A -> parser E B) b x y :
  parses p b x -> parses (f x) [] y -> parses (bind p f) b y.
Proof. intros; rewrite <- (app_nil_r b); eapply parses_bind; eauto. Qed.
Lemma parses_end_bind {E A B} (p : parser E A) (f : A -> parser E B) b1 b2 x y :
  parses p b1 x -> parses_end (f x) b2 y -> parses_end (bind p f) (b1 ++ b2) y.
Proof.
  intros H1 H2 off. unfold bind. rewrite H1, H2.
  f_equal. f_equal. rewrite blen_app; lia.
Qed.
Lemma parses_end_bind' {E A B} (p : parser E A) (f : A -> parser E B) b x y :
  parses_end p b x -> parses (f x) [] y -> parses_end (bind p f) b y.
Proof.
  intros H1 H2 off. unfold bind. rewrite H1.
  specialize (H2 [] (off + blen b)). cbn [app] in H2. rewrite H2.
  f_equal. f_equal. rewrite blen_nil; lia.
Qed.
Lemma parses_map_err {E F A} (g : E -> F) (p : parser E A) b x :
  parses p b x -> parses (pmap_err g p) b x.
Proof. intros H rest off. unfold pmap_err. rewrite H. reflexivity. Qed.
Lemma parses_end_map_err {E F A} (g : E -> F) (p : parser E A) b x :
  parses_end p b x -> parses_end (pmap_err g p) b x.
Proof. intros H off. unfold pmap_err. rewrite H. reflexivity. Qed.

Lemma parses_u8 v : parses read_u8 [v] v.
Proof. intros rest off. reflexivity. Qed.
Lemma parses_bytes l n : n = blen l -> parses (read_bytes n) l l.
Proof.
  intros -> rest off. unfold read_bytes. cbn [rbuf roff].
  rewrite blen_app. replace (blen l + blen rest <? blen l) with false by lia.
  now rewrite drop_app_exact, take_app_exact.
Qed.
Lemma parses_be k v : v < 256 ^ N.of_nat k -> parses (read_be (N.of_nat k)) (be_enc k v) v.
Proof.
  intros H. unfold read_be. eapply parses_bind_ret.
  - apply parses_bytes. now rewrite be_enc_blen.
  - rewrite be_val_enc by assumption. apply parses_ret.
Qed.
Lemma parses_be_raw l n : n = blen l -> parses (read_be n) l (be_val l).
Proof.
  intros ->. unfold read_be. eapply parses_bind_ret; [apply parses_bytes; reflexivity|apply parses_ret].
Qed.
Lemma parses_u16 v : v < 65536 -> parses read_u16 (be_enc 2 v) v.
Proof. intros H. apply (parses_be 2). exact H. Qed.
Lemma parses_u32 v : v < 4294967296 -> parses read_u32 (be_enc 4 v) v.
Proof. intros H. apply (parses_be 4). exact H. Qed.
Lemma parses_u64 v : v < 18446744073709551616 -> parses read_u64 (be_enc 8 v) v.
Proof. intros H. apply (parses_be 8). exact H. Qed.
Lemma parses_u128 v : v < 2 ^ 128 -> parses read_u128 (be_enc 16 v) v.
Proof. intros H. apply (parses_be 16). exact H. Qed.

Lemma parses_slice {E B} (g : perr -> E) n (k : reader -> parser E B) b b2 y :
  n = blen b -> (forall off, parses (k (mkR b off)) b2 y) ->
  parses (bind (pmap_err g (take_slice n)) k) (b ++ b2) y.
Proof.
  intros -> H rest off. unfold bind, pmap_err, take_slice.
  rewrite <- app_assoc.
  rewrite (parses_bytes b (blen b) eq_refl (b2 ++ rest) off). cbn [map_err roff].
  rewrite H. f_equal. f_equal. rewrite blen_app; lia.
Qed.
Lemma parses_slice_end {E B} (g : perr -> E) n (k : reader -> parser E B) b b2 y :
  n = blen b -> (forall off, parses_end (k (mkR b off)) b2 y) ->
  parses_end (bind (pmap_err g (take_slice n)) k) (b ++ b2) y.
Proof.
  intros -> H off. unfold bind, pmap_err, take_slice.
  rewrite (parses_bytes b (blen b) eq_refl b2 off). cbn [map_err roff].
  rewrite H. f_equal. f_equal. rewrite blen_app; lia.
Qed.
Lemma parses_on_sub {E A} (p : parser E A) b off x :
  parses_end p b x -> parses (on_sub (mkR b off) p) [] x.
Proof.
  intros H rest off'. unfold on_sub. rewrite H. cbn [snd app]. f_equal. f_equal.
  rewrite blen_nil; lia.
Qed.

(* many: a concatenation of non-empty encodings *)
Lemma parses_many {E A} (p : parser E A) (enc : A -> list N) xs fuel :
  (forall x, In x xs -> parses p (enc x) x /\ enc x <> []) ->
  (length xs <= fuel)%nat ->
  parses_end (many fuel p) (flat_map enc xs) xs.
Proof.
  revert fuel; induction xs as [|x xs IH]; intros fuel H Hf off; cbn [flat_map].
  - destruct fuel; cbn [many ris_empty rbuf]; rewrite blen_nil, N.add_0_r; reflexivity.
  - destruct (H x (or_introl eq_refl)) as [Hp Hne].
    destruct fuel as [|fuel]; [cbn in Hf; lia|]. cbn [many].
    assert (Hnz : ris_empty (mkR (enc x ++ flat_map enc xs) off) = false).
    { unfold ris_empty; cbn [rbuf]. destruct (enc x); [congruence|reflexivity]. }
    rewrite Hnz.
    assert (He : parses_end (do x0 <- p;; do xs0 <- many fuel p;; ret (x0 :: xs0))
                   (enc x ++ flat_map enc xs) (x :: xs)).
    { eapply parses_end_bind; [exact Hp|].
      eapply parses_end_bind'; [apply IH|apply parses_ret].
      - intros z Hz; apply H; now right.
      - cbn in Hf; lia. }
    apply He.
Qed.
Lemma length_flat_map_ge {A} (enc : A -> list N) xs :
  (forall x, In x xs -> enc x <> []) -> (length xs <= length (flat_map enc xs))%nat.
Proof.
  induction xs as [|x xs IH]; intros H; cbn; [lia|].
  rewrite app_length. assert (enc x <> []) by (apply H; now left).
  destruct (enc x); [congruence|]. cbn.
  assert (length xs <= length (flat_map enc xs))%nat by (apply IH; intros; apply H; now right).
  lia.
Qed.
Lemma parses_many_all {E A} (p : parser E A) (enc : A -> list N) xs :
  (forall x, In x xs -> parses p (enc x) x /\ enc x <> []) ->
  parses_end (many_all p) (flat_map enc xs) xs.
Proof.
  intros H off. unfold many_all. cbn [rbuf].
  apply parses_many; [exact H|].
  assert (length xs <= length (flat_map enc xs))%nat
    by (apply length_flat_map_ge; intros x Hx; apply H; assumption).
  lia.
Qed.

(* ---------------- safety: advancing, no panic, no divergence ---------- *)
Definition adv (r r' : reader) : Prop :=
  exists pre, rbuf r = pre ++ rbuf r' /\ roff r' = roff r + blen pre.
Lemma adv_refl r : adv r r.
Proof. exists []; split; [reflexivity|rewrite blen_nil; lia]. Qed.
Lemma adv_trans a b c : adv a b -> adv b c -> adv a c.
Proof.
  intros [p [H1 H2]] [q [H3 H4]]. exists (p ++ q); split.
  - rewrite H1, H3. now rewrite app_assoc.
  - rewrite H4, H2, blen_app; lia.
Qed.
Lemma adv_len r r' : adv r r' -> (length (rbuf r') <= length (rbuf r))%nat.
Proof. intros [p [H _]]. rewrite H, app_length; lia. Qed.

Definition no_crash {E A} (x : res E A) : Prop :=
  match x with Panic | Diverge => False | _ => True end.
(* A parser that only moves forward and neither panics nor diverges. *)
Definition safe {E A} (p : parser E A) : Prop :=
  forall r, adv r (fst (p r)) /\ no_crash (snd (p r)).
(* ... and consumes at least one byte when it succeeds. *)
Definition strict {E A} (p : parser E A) : Prop :=
  forall r a, snd (p r) = Ok a -> (length (rbuf (fst (p r))) < length (rbuf r))%nat.

Lemma safe_ret {E A} (x : A) : safe (@ret E A x).
Proof. intros r; split; [apply adv_refl|exact I]. Qed.
Lemma safe_fail {E A} (e : E) : safe (@fail E A e).
Proof. intros r; split; [apply adv_refl|exact I]. Qed.
Lemma safe_bind {E A B} (p : parser E A) (f : A -> parser E B) :
  safe p -> (forall a, safe (f a)) -> safe (bind p f).
Proof.
  intros Hp Hf r. unfold bind. destruct (Hp r) as [Ha Hc].
  destruct (p r) as [r' x] eqn:Hpr. cbn [fst snd] in *.
  destruct x as [a|e| |]; cbn in Hc; try contradiction.
  - destruct (Hf a r') as [Ha' Hc']. split; [|exact Hc'].
    eapply adv_trans; eauto.
  - cbn [fst snd]. split; [exact Ha|exact I].
Qed.
Lemma safe_map_err {E F A} (g : E -> F) (p : parser E A) : safe p -> safe (pmap_err g p).
Proof.
  intros Hp r. unfold pmap_err. destruct (Hp r) as [Ha Hc].
  destruct (p r) as [r' x]. cbn [fst snd] in *. split; [exact Ha|].
  destruct x; cbn in *; auto.
Qed.
Lemma safe_u8 : safe read_u8.
Proof.
  intros [b o]. unfold read_u8; cbn [rbuf roff]. destruct b as [|v b]; cbn [fst snd].
  - split; [apply adv_refl|exact I].
  - split; [exists [v]; split; [reflexivity|reflexivity]|exact I].
Qed.
Lemma safe_bytes n : safe (read_bytes n).
Proof.
  intros [b o]. unfold read_bytes; cbn [rbuf roff].
  destruct (blen b <? n) eqn:Hb; cbn [fst snd].
  - split; [apply adv_refl|exact I].
  - split; [|exact I]. exists (take n b); cbn [rbuf roff]; split.
    + symmetry; apply take_drop.
    + rewrite blen_take; [reflexivity|lia].
Qed.
Lemma safe_be n : safe (read_be n).
Proof. apply safe_bind; [apply safe_bytes|intros; apply safe_ret]. Qed.
Lemma safe_peek_be n : safe (peek_be n).
Proof. intros r. unfold peek_be. destruct (_ <? _); split; try apply adv_refl; exact I. Qed.
Lemma safe_peek_u8 : safe peek_u8.
Proof. intros r. unfold peek_u8. destruct (rbuf r); split; try apply adv_refl; exact I. Qed.
Lemma safe_take_slice n : safe (take_slice n).
Proof.
  intros r. unfold take_slice. destruct (safe_bytes n r) as [Ha Hc].
  destruct (read_bytes n r) as [r' x]. cbn [fst snd] in *.
  destruct x; cbn [fst snd] in *; split; auto.
Qed.
Lemma safe_padded n len : safe (read_padded n len).
Proof.
  unfold read_padded. destruct (n <? len).
  - intros r; split; [apply adv_refl|exact I].
  - apply safe_bind; [apply safe_bytes|intros; apply safe_ret].
Qed.
Lemma safe_if {E A} (b : bool) (p q : parser E A) : safe p -> safe q -> safe (if b then p else q).
Proof. destruct b; auto. Qed.
Lemma safe_on_sub {E A} sub (p : parser E A) : safe p -> safe (on_sub sub p).
Proof. intros H r. unfold on_sub; cbn. split; [apply adv_refl|apply H]. Qed.

Lemma strict_bind_l {E A B} (p : parser E A) (f : A -> parser E B) :
  strict p -> (forall a, safe (f a)) -> strict (bind p f).
Proof.
  intros Hp Hf r b. unfold bind. specialize (Hp r).
  destruct (p r) as [r' x]. cbn [fst snd] in *.
  destruct x as [a|e| |]; cbn [fst snd]; try discriminate.
  intros Hb. specialize (Hp a eq_refl). destruct (Hf a r') as [Ha _].
  apply adv_len in Ha. lia.
Qed.
Lemma strict_bind_r {E A B} (p : parser E A) (f : A -> parser E B) :
  safe p -> (forall a, strict (f a)) -> strict (bind p f).
Proof.
  intros Hp Hf r b. unfold bind. specialize (Hp r).
  destruct (p r) as [r' x]. cbn [fst snd] in *.
  destruct x as [a|e| |]; cbn [fst snd]; try discriminate.
  intros Hb. specialize (Hf a r' b Hb). destruct Hp as [Ha _].
  apply adv_len in Ha. lia.
Qed.
Lemma strict_map_err {E F A} (g : E -> F) (p : parser E A) : strict p -> strict (pmap_err g p).
Proof.
  intros Hp r a. unfold pmap_err. specialize (Hp r). destruct (p r) as [r' x].
  cbn [fst snd] in *. destruct x as [y|e| |]; cbn; try discriminate. intros H.
  apply (Hp y). reflexivity.
Qed.
Lemma strict_u8 : strict read_u8.
Proof.
  intros [b o] a. unfold read_u8; cbn [rbuf]. destruct b as [|v b]; cbn; [discriminate|].
  intros _; lia.
Qed.
Lemma strict_bytes n : 0 < n -> strict (read_bytes n).
Proof.
  intros Hn [b o] a. unfold read_bytes; cbn [rbuf roff].
  destruct (blen b <? n) eqn:Hb; cbn [fst snd]; [discriminate|].
  intros _. cbn [rbuf]. assert (H := blen_drop n b). unfold blen in *. lia.
Qed.
Lemma strict_be n : 0 < n -> strict (read_be n).
Proof. intros H. apply strict_bind_l; [now apply strict_bytes|intros; apply safe_ret]. Qed.
Lemma strict_take_slice n : 0 < n -> strict (take_slice n).
Proof.
  intros Hn r a. unfold take_slice. pose proof (strict_bytes n Hn r) as H.
  destruct (read_bytes n r) as [r' [x|e| |]]; cbn [fst snd] in *; try discriminate.
  intros _. now apply (H x).
Qed.
Lemma strict_fail {E A} (e : E) : strict (@fail E A e).
Proof. intros r a; cbn; discriminate. Qed.

Lemma many_safe_aux {E A} (p : parser E A) : safe p -> strict p ->
  forall fuel r, (length (rbuf r) <= fuel)%nat ->
  adv r (fst (many fuel p r)) /\ no_crash (snd (many fuel p r)).
Proof.
  intros Hs Ht. induction fuel as [|fuel IH]; intros r Hf; cbn [many].
  - unfold ris_empty. destruct (rbuf r) eqn:Hb; cbn in Hf; [|lia].
    split; [apply adv_refl|exact I].
  - unfold ris_empty. destruct (rbuf r) as [|x l] eqn:Hb; [split; [apply adv_refl|exact I]|].
    unfold bind. destruct (Hs r) as [Ha Hc]. specialize (Ht r).
    destruct (p r) as [r' [a|e| |]]; cbn [fst snd] in *; try contradiction.
    2:{ split; [exact Ha|exact I]. }
    specialize (Ht a eq_refl).
    assert (Hl : (length (rbuf r') <= fuel)%nat).
    { rewrite Hb in Ht. cbn [length] in *. lia. }
    specialize (IH r' Hl). destruct (many fuel p r') as [r'' [xs|e| |]]; cbn [fst snd] in *.
    + split; [eapply adv_trans; [exact Ha|tauto]|exact I].
    + split; [eapply adv_trans; [exact Ha|tauto]|exact I].
    + destruct IH as [_ IH]; contradiction.
    + destruct IH as [_ IH]; contradiction.
Qed.
Lemma safe_many_all {E A} (p : parser E A) : safe p -> strict p -> safe (many_all p).
Proof. intros Hs Ht r. unfold many_all. apply many_safe_aux; auto; lia. Qed.

Lemma safe_get_reader {E} : safe (@get_reader E).
Proof. intros r. split; [apply adv_refl|exact I]. Qed.
(* Structural safety proof; leaves the goals it cannot decompose. *)
Ltac psafe :=
  repeat (cbv zeta; first
  [ apply safe_ret | apply safe_fail | apply safe_get_reader | apply safe_u8 | apply safe_bytes
  | apply safe_be | apply safe_peek_be | apply safe_peek_u8 | apply safe_take_slice
  | apply safe_padded | assumption
  | apply safe_map_err | apply safe_on_sub
  | apply safe_bind; [|intros ?]
  | apply safe_many_all
  | match goal with |- safe (match ?x with _ => _ end) => destruct x end
  | match goal with |- safe (let (_, _) := ?x in _) => destruct x end ]).

(* ---------------- bit operations ---------------- *)
Lemma lor_disjoint a b k : b < 2 ^ k -> N.lor (a * 2 ^ k) b = a * 2 ^ k + b.
Proof.
  intros Hb.
  assert (H0 : N.land (a * 2 ^ k) b = 0).
  { apply N.bits_inj; intros i. rewrite N.land_spec, N.bits_0.
    destruct (N.lt_ge_cases i k) as [Hi|Hi].
    - rewrite N.mul_pow2_bits_low by assumption. reflexivity.
    - destruct (N.eq_dec b 0) as [->|Hb0]; [rewrite N.bits_0; apply andb_false_r|].
      rewrite (N.bits_above_log2 b i); [apply andb_false_r|].
      apply N.log2_lt_pow2; [lia|]. eapply N.lt_le_trans; [exact Hb|].
      apply N.pow_le_mono_r; lia. }
  rewrite <- N.lxor_lor by exact H0. symmetry. now apply N.add_nocarry_lxor.
Qed.
Lemma land_mask a k : N.land a (2 ^ k - 1) = a mod 2 ^ k.
Proof. rewrite <- N.land_ones. f_equal. rewrite N.ones_equiv. lia. Qed.
Lemma land_65535 a : N.land a 65535 = a mod 65536.
Proof. apply (land_mask a 16). Qed.
Lemma land_255 a : N.land a 255 = a mod 256.
Proof. apply (land_mask a 8). Qed.
Lemma land_127 a : N.land a 127 = a mod 128.
Proof. apply (land_mask a 7). Qed.
Lemma land_15 a : N.land a 15 = a mod 16.
Proof. apply (land_mask a 4). Qed.
Lemma land_7 a : N.land a 7 = a mod 8.
Proof. apply (land_mask a 3). Qed.
Lemma land_3 a : N.land a 3 = a mod 4.
Proof. apply (land_mask a 2). Qed.
Lemma land_1 a : N.land a 1 = a mod 2.
Proof. apply (land_mask a 1). Qed.
Lemma shiftr_div a k : N.shiftr a k = a / 2 ^ k.
Proof. apply N.shiftr_div_pow2. Qed.
Lemma shiftl_mul a k : N.shiftl a k = a * 2 ^ k.
Proof. apply N.shiftl_mul_pow2. Qed.
Lemma land_pow2 a k : N.land a (2 ^ k) = if N.testbit a k then 2 ^ k else 0.
Proof.
  apply N.bits_inj; intros i. rewrite N.land_spec, N.pow2_bits_eqb.
  destruct (N.eqb_spec k i) as [->|H].
  - destruct (N.testbit a i); [now rewrite N.pow2_bits_true|now rewrite N.bits_0].
  - rewrite andb_false_r. destruct (N.testbit a k); [now rewrite N.pow2_bits_false|now rewrite N.bits_0].
Qed.
(* Lift a finite check below a bound. *)
Lemma below_forall (n : nat) (P : N -> bool) :
  forallb P (map N.of_nat (seq 0 n)) = true -> forall v, v < N.of_nat n -> P v = true.
Proof.
  intros H v Hv. rewrite forallb_forall in H. apply H. apply in_map_iff.
  exists (N.to_nat v). split; [lia|]. apply in_seq. lia.
Qed.

(* ---------------- inversion of successful parses ---------------- *)
Lemma bind_ok {E A B} (p : parser E A) (f : A -> parser E B) r r' y :
  bind p f r = (r', Ok y) -> exists x r1, p r = (r1, Ok x) /\ f x r1 = (r', Ok y).
Proof.
  unfold bind. destruct (p r) as [r1 [x|e| |]]; intros H; try discriminate. eauto.
Qed.
Lemma map_err_ok {E F A} (g : E -> F) (p : parser E A) r r' y :
  pmap_err g p r = (r', Ok y) -> p r = (r', Ok y).
Proof.
  unfold pmap_err. destruct (p r) as [r1 [x|e| |]]; cbn; intros H; inversion H; reflexivity.
Qed.
Lemma ret_ok {E A} (a : A) r r' (y : A) : @ret E A a r = (r', Ok y) -> r' = r /\ y = a.
Proof. unfold ret; intros H; inversion H; auto. Qed.
Lemma fail_ok {E A} (e : E) r r' (y : A) : fail e r = (r', Ok y) -> False.
Proof. unfold fail; intros H; inversion H. Qed.
Lemma read_u8_ok r r' v : read_u8 r = (r', Ok v) ->
  rbuf r = v :: rbuf r' /\ roff r' = roff r + 1.
Proof.
  unfold read_u8. destruct (rbuf r) as [|x l] eqn:E; intros H; inversion H; subst; auto.
Qed.
Lemma read_bytes_ok_inv n r r' b : read_bytes n r = (r', Ok b) ->
  rbuf r = b ++ rbuf r' /\ roff r' = roff r + n /\ blen b = n.
Proof.
  unfold read_bytes. destruct (blen (rbuf r) <? n) eqn:Hb; intros H; inversion H; subst; cbn [rbuf roff].
  split; [symmetry; apply take_drop|]. split; [reflexivity|]. apply blen_take; lia.
Qed.
Lemma read_be_ok n r r' v : read_be n r = (r', Ok v) ->
  exists b, rbuf r = b ++ rbuf r' /\ roff r' = roff r + n /\ blen b = n /\ v = be_val b.
Proof.
  unfold read_be. intros H. apply bind_ok in H as [b [r1 [H1 H2]]].
  apply ret_ok in H2 as [-> ->]. apply read_bytes_ok_inv in H1. exists b; tauto.
Qed.
Lemma take_slice_ok n r r' s : take_slice n r = (r', Ok s) ->
  rbuf r = rbuf s ++ rbuf r' /\ roff r' = roff r + n /\ blen (rbuf s) = n /\ roff s = roff r.
Proof.
  unfold take_slice. destruct (read_bytes n r) as [r1 [b|e| |]] eqn:E; intros H; inversion H; subst.
  apply read_bytes_ok_inv in E. cbn [rbuf roff]. tauto.
Qed.
Lemma get_reader_ok {E} r r' v : @get_reader E r = (r', Ok v) -> r' = r /\ v = r.
Proof. unfold get_reader. intros H; inversion H; auto. Qed.
Lemma on_sub_ok {E A} sub (p : parser E A) r r' y : on_sub sub p r = (r', Ok y) ->
  r' = r /\ exists s', p sub = (s', Ok y).
Proof.
  unfold on_sub. destruct (p sub) as [s' x]. cbn. intros H; inversion H; subst. eauto.
Qed.
Lemma peek_be_ok n r r' v : peek_be n r = (r', Ok v) ->
  r' = r /\ n <= blen (rbuf r) /\ v = be_val (take n (rbuf r)).
Proof.
  unfold peek_be. destruct (blen (rbuf r) <? n) eqn:Hb; intros H; inversion H; subst.
  repeat split; lia.
Qed.
Lemma many_ok {E A} (p : parser E A) (P : A -> Prop) (Q : reader -> Prop) :
  (forall r r' x, Q r -> p r = (r', Ok x) -> P x /\ Q r') ->
  forall fuel r r' xs, Q r -> many fuel p r = (r', Ok xs) -> Forall P xs /\ rbuf r' = [].
Proof.
  intros Hp. induction fuel as [|fuel IH]; intros r r' xs HQ H; cbn [many] in H.
  - unfold ris_empty in H. destruct (rbuf r) eqn:Eb; inversion H; subst. auto.
  - unfold ris_empty in H. destruct (rbuf r) eqn:Eb; [inversion H; subst; auto|].
    apply bind_ok in H as [x [r1 [H1 H2]]]. apply bind_ok in H2 as [ys [r2 [H2 H3]]].
    apply ret_ok in H3 as [-> ->]. apply Hp in H1 as [Hx HQ']; [|assumption].
    apply IH in H2; [|assumption]. split; [constructor; tauto|tauto].
Qed.
(* Standard step-by-step inversion of a successful parse. *)
Ltac pinv :=
  repeat match goal with
  | H : bind _ _ _ = (_, Ok _) |- _ => apply bind_ok in H as [? [? [? H]]]
  | H : pmap_err _ _ _ = (_, Ok _) |- _ => apply map_err_ok in H
  | H : ret _ _ = (_, Ok _) |- _ => apply ret_ok in H as [? ?]; subst
  | H : fail _ _ = (_, Ok _) |- _ => apply fail_ok in H; contradiction
  | H : get_reader _ = (_, Ok _) |- _ => apply get_reader_ok in H as [? ?]; subst
  end.
