(* Lemmas about communities. *)
From Coq Require Import String.
From Verif Require Import Base BaseLemmas NcModel NcProofs EcModel EcSpec.
Local Notation length := List.length.

(* ---- tables ---- *)
Ltac absent := right; split; [reflexivity|cbn; intros K; repeat (destruct K as [K|K]; [discriminate K|]); destruct K].
Ltac named := left; eexists; split; [reflexivity|reflexivity].
Ltac named_as := left; eexists; split; [reflexivity|]; split; [first [left; reflexivity|right; reflexivity]|first [discriminate|reflexivity]].
Ltac table n t := destruct n as [|p]; [t|]; do 8 (try (destruct p as [p|p|]; try t)).
Lemma two_table n : (exists k, two_of n = Some k /\ (k = T2SourceAs \/ two_code k = n) /\ (k = T2SourceAs -> n = 9)) \/ (two_of n = None /\ ~ In n two_numbers).
Proof. table n ltac:(first [named_as|absent]). Qed.
Lemma four_table n : (exists k, four_of n = Some k /\ (k = T4SourceAs \/ four_code k = n) /\ (k = T4SourceAs -> n = 9)) \/ (four_of n = None /\ ~ In n four_numbers).
Proof. table n ltac:(first [named_as|absent]). Qed.
Lemma ntwo_table n : (exists k, ntwo_of n = Some k /\ ntwo_code k = n) \/ (ntwo_of n = None /\ ~ In n ntwo_numbers).
Proof. table n ltac:(first [named|absent]). Qed.
Lemma ip4_table n : (exists k, ip4_of n = Some k /\ ip4_code k = n) \/ (ip4_of n = None /\ ~ In n ip4_numbers).
Proof. table n ltac:(first [named|absent]). Qed.
Lemma ip6_table n : (exists k, ip6_of n = Some k /\ ip6_code k = n) \/ (ip6_of n = None /\ ~ In n ip6_numbers).
Proof. table n ltac:(first [named|absent]). Qed.
Ltac none n := intros H; destruct n as [|p]; [try reflexivity; exfalso; apply H; cbn; tauto|]; do 8 (try (destruct p as [p|p|]; try reflexivity));
  exfalso; apply H; cbn; repeat (first [left; reflexivity|right]).
Lemma two_none n : ~ In n two_numbers -> two_of n = None. Proof. none n. Qed.
Lemma ntwo_none n : ~ In n ntwo_numbers -> ntwo_of n = None. Proof. none n. Qed.
Lemma four_none n : ~ In n four_numbers -> four_of n = None. Proof. none n. Qed.
Lemma ip4_none n : ~ In n ip4_numbers -> ip4_of n = None. Proof. none n. Qed.
Lemma ip6_none n : ~ In n ip6_numbers -> ip6_of n = None. Proof. none n. Qed.

Lemma experimental_iff code : is_experimental code = true <-> experimental code.
Proof. unfold is_experimental, experimental. lia. Qed.
Definition rest_of (code : N) : cparser extcomm := if is_experimental code then parse_raw 6 (Experimental code) else parse_raw 6 (Unknown code).
Lemma parse_ext_rest code : ~ typed code -> forall rest off, parse_ext (mkR (code :: rest) off) = rest_of code (mkR rest (off + 1)).
Proof.
  intros H rest off. unfold parse_ext, bind, read_u8. cbn [rbuf roff]. fold (rest_of code).
  destruct code as [|p]; [exfalso; apply H; left; reflexivity|].
  do 7 (try (destruct p as [p|p|]; try reflexivity)); exfalso; apply H; cbn; repeat (first [left; reflexivity|right]).
Qed.

(* ---- exact consumption ---- *)
Definition exact {A} (p : cparser A) (k : N) : Prop := forall r,
  (k <= blen (rbuf r) -> exists a off, p r = (mkR (drop k (rbuf r)) off, Ok a)) /\
  (blen (rbuf r) < k -> exists r' e, p r = (r', Err e)).
Lemma exact_ret {A} (a : A) : exact (ret a) 0.
Proof. intros [b o]. split; [|cbn; lia]. intros _. exists a, o. reflexivity. Qed.
Lemma exact_bytes n : exact (read_bytes n) n.
Proof.
  intros [b o]. unfold read_bytes. cbn [rbuf roff]. split; intros H.
  - replace (blen b <? n) with false by lia. eexists. eexists. reflexivity.
  - replace (blen b <? n) with true by lia. eexists. eexists. reflexivity.
Qed.
Lemma exact_u8 : exact read_u8 1.
Proof.
  intros [[|v b] o]; unfold read_u8; cbn [rbuf roff]; split; intros H.
  - cbv in H. congruence.
  - eexists. eexists. reflexivity.
  - exists v, (o + 1). reflexivity.
  - rewrite blen_cons in H. lia.
Qed.
Lemma exact_bind {A B} (p : cparser A) (f : A -> cparser B) a b : exact p a -> (forall x, exact (f x) b) -> exact (bind p f) (a + b).
Proof.
  intros P F r. destruct (P r) as [P1 P2]. unfold bind. split; intros H.
  - destruct (P1 ltac:(lia)) as [x [o E]]. rewrite E. destruct (F x (mkR (drop a (rbuf r)) o)) as [F1 _]. cbn [rbuf] in F1. rewrite blen_drop in F1.
    destruct (F1 ltac:(lia)) as [y [o' E']]. exists y, o'. rewrite E', drop_drop, (N.add_comm b a). reflexivity.
  - destruct (N.lt_ge_cases (blen (rbuf r)) a) as [L|L].
    + destruct (P2 L) as [r' [e E]]. rewrite E. eexists. eexists. reflexivity.
    + destruct (P1 L) as [x [o E]]. rewrite E. destruct (F x (mkR (drop a (rbuf r)) o)) as [_ F2]. cbn [rbuf] in F2. rewrite blen_drop in F2.
      apply F2. lia.
Qed.
Lemma exact_be n : exact (read_be n) n.
Proof. unfold read_be. replace n with (n + 0) at 2 by lia. apply exact_bind; [apply exact_bytes|intros; apply exact_ret]. Qed.
Lemma exact_eq {A} (p : cparser A) a b : exact p a -> a = b -> exact p b.
Proof. intros H <-. exact H. Qed.
Lemma exact_as {A B} (f : A -> B) p n : exact p n -> exact (as_ f p) n.
Proof. intros H. unfold as_. apply (exact_eq _ (n + 0)); [apply exact_bind; [exact H|intros; apply exact_ret]|lia]. Qed.
Ltac ex := repeat first [apply exact_bind; [first [apply exact_u8|apply exact_be|apply exact_bytes]|intros ?]|apply exact_ret].
Lemma exact_admin {K} gw lw (of : N -> option K) : exact (parse_admin gw lw of) (1 + (gw + (lw + 0))).
Proof. unfold parse_admin. ex. Qed.
Lemma exact_plain {A} gw lw (mk : N -> N -> N -> A) : exact (parse_plain gw lw mk) (1 + (gw + (lw + 0))).
Proof. unfold parse_plain. ex. Qed.
Lemma exact_raw {A} n (mk : N -> list N -> A) : exact (parse_raw n mk) (1 + (n + 0)).
Proof. unfold parse_raw. ex. Qed.
Ltac six := first [solve [apply (exact_eq _ (6 + 0)); [ex|reflexivity]] | solve [apply (exact_eq _ (1 + (1 + (4 + 0)))); [ex|reflexivity]]
  | solve [apply (exact_eq _ (1 + (2 + (3 + 0)))); [ex|reflexivity]] | solve [apply (exact_eq _ (2 + (2 + (2 + 0)))); [ex|reflexivity]]].
Lemma exact_opaque : exact parse_opaque 7.
Proof.
  unfold parse_opaque. apply (exact_eq _ (1 + 6)); [|reflexivity]. apply exact_bind; [apply exact_u8|]. intros st.
  destruct st as [|p]; [six|]. do 4 (try (destruct p as [p|p|]; try six)).
Qed.
Lemma exact_evpn : exact parse_evpn 7.
Proof.
  unfold parse_evpn. apply (exact_eq _ (1 + 6)); [|reflexivity]. apply exact_bind; [apply exact_u8|]. intros st.
  destruct st as [|p]; [six|]. do 3 (try (destruct p as [p|p|]; try six)).
Qed.
Ltac seven := first [apply exact_as; first [apply exact_opaque|apply exact_evpn|eapply exact_eq; [apply exact_admin|reflexivity]]
  | eapply exact_eq; [apply exact_plain|reflexivity] | eapply exact_eq; [apply exact_raw|reflexivity]
  | match goal with |- context [is_experimental ?c] => destruct (is_experimental c) end; eapply exact_eq; [apply exact_raw|reflexivity|apply exact_raw|reflexivity]].
Lemma exact_rest code : exact (rest_of code) 7.
Proof. unfold rest_of. destruct (is_experimental code); (eapply exact_eq; [apply exact_raw|reflexivity]). Qed.
Lemma exact_ext : exact parse_ext 8.
Proof.
  unfold parse_ext. apply (exact_eq _ (1 + 7)); [|reflexivity]. apply exact_bind; [apply exact_u8|]. intros code. fold (rest_of code).
  destruct code as [|p]; [seven|]. do 7 (try (destruct p as [p|p|]; try first [exact (exact_rest _)|seven])).
Qed.
Lemma exact_ext6 : exact parse_ext6 20.
Proof.
  unfold parse_ext6. apply (exact_eq _ (1 + 19)); [|reflexivity]. apply exact_bind; [apply exact_u8|]. intros code.
  destruct code as [|p]; [seven|]. do 7 (try (destruct p as [p|p|]; try seven)).
Qed.

(* ---- reading what was written ---- *)
Lemma parses_cons {A B} (p : cparser A) (f : N -> cparser B) v b y : parses (f v) b y -> parses (bind read_u8 f) (v :: b) y.
Proof. intros H. change (v :: b) with ([v] ++ b). eapply parses_bind; [apply parses_u8|exact H]. Qed.
Lemma p_as {A B} (f : A -> B) p b x : parses p b x -> parses (as_ f p) b (f x).
Proof. intros H. unfold as_. eapply parses_bind_ret; [exact H|apply parses_ret]. Qed.
Lemma p_tail {A} (gw lw : nat) g l (y : A) (h : N -> N -> A) : g < 256 ^ N.of_nat gw -> l < 256 ^ N.of_nat lw -> h g l = y ->
  parses (bind (read_be (N.of_nat gw)) (fun g => bind (read_be (N.of_nat lw)) (fun l => ret (h g l)))) (be_enc gw g ++ be_enc lw l) y.
Proof.
  intros G L <-. eapply parses_bind; [apply parses_be; exact G|]. eapply parses_bind_ret; [apply parses_be; exact L|apply parses_ret].
Qed.
Lemma p_admin {K} (gw lw : nat) (of : N -> option K) code numbers a :
  admin_fits (256 ^ N.of_nat gw) (256 ^ N.of_nat lw) numbers a -> (forall n, ~ In n numbers -> of n = None) ->
  (forall k g l, a = Assigned k g l -> of (code k) = Some k) ->
  parses (parse_admin (N.of_nat gw) (N.of_nat lw) of) (write_admin gw lw code a) a.
Proof.
  intros F NN OC. unfold parse_admin, write_admin. destruct a as [k g l|st g l]; cbn in F.
  - apply (parses_cons (ret tt)). apply p_tail; [apply F|apply F|]. rewrite (OC k g l eq_refl). reflexivity.
  - apply (parses_cons (ret tt)). apply p_tail; [apply F|apply F|]. rewrite NN by apply F. reflexivity.
Qed.
Lemma p_raw {A} n (mk : N -> list N -> A) st v : octets n v -> parses (parse_raw n mk) (st :: v) (mk st v).
Proof.
  intros [L _]. unfold parse_raw. apply (parses_cons (ret tt)). eapply parses_bind_ret; [apply parses_bytes; symmetry; exact L|apply parses_ret].
Qed.
Lemma p_plain {A} (gw lw : nat) (mk : N -> N -> N -> A) st g l : g < 256 ^ N.of_nat gw -> l < 256 ^ N.of_nat lw ->
  parses (parse_plain (N.of_nat gw) (N.of_nat lw) mk) (st :: be_enc gw g ++ be_enc lw l) (mk st g l).
Proof. intros G L. unfold parse_plain. apply (parses_cons (ret tt)). apply p_tail; [exact G|exact L|reflexivity]. Qed.
Lemma p_opaque o : opaque_fits o -> parses parse_opaque (write_opaque o) o.
Proof.
  intros F. unfold parse_opaque, write_opaque. destruct o as [d ip| |st v]; cbn in F; apply (parses_cons (ret tt)).
  - apply (parses_cons (ret tt)). apply (parses_cons (ret tt)). eapply parses_bind_ret; [apply parses_u32; exact F|]. destruct d; apply parses_ret.
  - eapply parses_bind_ret; [apply parses_bytes; reflexivity|apply parses_ret].
  - destruct F as [_ [F1 [F2 [L _]]]].
    assert (Q : parses (do v <- read_bytes 6;; ret (OpUnassigned st v)) v (OpUnassigned st v))
      by (eapply parses_bind_ret; [apply parses_bytes; symmetry; exact L|apply parses_ret]).
    destruct st as [|p]; [exact Q|]. do 4 (try (destruct p as [p|p|]; try exact Q)); congruence.
Qed.
Lemma p_evpn e : evpn_fits e -> parses parse_evpn (write_evpn e) e.
Proof.
  intros F. unfold parse_evpn, write_evpn. destruct e as [f s|f l|v|v|f m|st v]; cbn in F; apply (parses_cons (ret tt)).
  - apply (parses_cons (ret tt)). apply (parses_cons (ret tt)). eapply parses_bind_ret; [apply parses_u32; apply F|apply parses_ret].
  - apply (parses_cons (ret tt)). eapply parses_bind; [apply (parses_be_raw (be_enc 2 0)); reflexivity|].
    eapply parses_bind_ret; [apply parses_bytes; symmetry; apply F|apply parses_ret].
  - eapply parses_bind_ret; [apply parses_bytes; symmetry; apply F|apply parses_ret].
  - eapply parses_bind_ret; [apply parses_bytes; symmetry; apply F|apply parses_ret].
  - eapply parses_bind; [apply parses_u16; apply F|]. eapply parses_bind; [apply parses_u16; apply F|].
    eapply parses_bind_ret; [apply (parses_be_raw (be_enc 2 0)); reflexivity|apply parses_ret].
  - destruct F as [_ [F1 [L _]]].
    assert (Q : parses (do v <- read_bytes 6;; ret (EvUnassigned st v)) v (EvUnassigned st v))
      by (eapply parses_bind_ret; [apply parses_bytes; symmetry; exact L|apply parses_ret]).
    destruct st as [|p]; [lia|]. do 3 (try (destruct p as [p|p|]; try exact Q)); lia.
Qed.
Lemma p_rest code b c : ~ typed code -> parses (rest_of code) b c -> parses parse_ext (code :: b) c.
Proof.
  intros T H rest off. cbn [app]. rewrite (parse_ext_rest code T), H. f_equal. f_equal. rewrite blen_cons. lia.
Qed.
Lemma p_ext c : ext_fits c -> ~ source_as c -> parses parse_ext (write_ext c) c.
Proof.
  intros F S. destruct c as [a|a|a|st g l|a|st g l|o|st v|e|code st v|code st v]; cbn [write_ext]; cbn [ext_fits] in F.
  - apply (parses_cons (ret tt)). apply p_as. apply (p_admin 2 4 two_of two_code two_numbers a); [exact F|exact two_none|].
    intros k g l ->. destruct k; try reflexivity. destruct (S I).
  - apply (parses_cons (ret tt)). apply p_as. apply (p_admin 2 4 ntwo_of ntwo_code ntwo_numbers a); [exact F|exact ntwo_none|]. intros k g l ->. destruct k; reflexivity.
  - apply (parses_cons (ret tt)). apply p_as. apply (p_admin 4 2 ip4_of ip4_code ip4_numbers a); [exact F|exact ip4_none|]. intros k g l ->. destruct k; reflexivity.
  - apply (parses_cons (ret tt)). apply (p_plain 4 2); apply F.
  - apply (parses_cons (ret tt)). apply p_as. apply (p_admin 4 2 four_of four_code four_numbers a); [exact F|exact four_none|].
    intros k g l ->. destruct k; try reflexivity. destruct (S I).
  - apply (parses_cons (ret tt)). apply (p_plain 4 2); apply F.
  - apply (parses_cons (ret tt)). apply p_as. apply p_opaque. exact F.
  - apply (parses_cons (ret tt)). apply p_raw. apply F.
  - apply (parses_cons (ret tt)). apply p_as. apply p_evpn. exact F.
  - destruct F as [X [_ V]]. apply p_rest.
    + intros T. cbn in T. unfold experimental in X. repeat (destruct T as [T|T]; [lia|]). destruct T.
    + unfold rest_of. rewrite (proj2 (experimental_iff code) X). apply p_raw. exact V.
  - destruct F as [_ [T [X [_ V]]]]. apply p_rest; [exact T|]. unfold rest_of. destruct (is_experimental code) eqn:E.
    + destruct X. apply experimental_iff. exact E.
    + apply p_raw. exact V.
Qed.
Lemma p_ext6 c : ext6_fits c -> parses parse_ext6 (write_ext6 c) c.
Proof.
  intros F. destruct c as [a|st g l|code st v]; cbn [write_ext6]; cbn [ext6_fits] in F.
  - apply (parses_cons (ret tt)). apply p_as. apply (p_admin 16 2 ip6_of ip6_code ip6_numbers a); [exact F|exact ip6_none|]. intros k g l ->. destruct k; reflexivity.
  - apply (parses_cons (ret tt)). apply (p_plain 16 2); apply F.
  - destruct F as [_ [T1 [T2 [_ V]]]]. apply (parses_cons (ret tt)). pose proof (p_raw 18 (Unknown6 code) st v V) as Q.
    destruct code as [|p]; [congruence|]. do 7 (try (destruct p as [p|p|]; try exact Q)); congruence.
Qed.
Lemma write_ext_len c : ext_fits c -> blen (write_ext c) = 8.
Proof.
  intros F. destruct c as [a|a|a|st g l|a|st g l|o|st v|e|code st v|code st v]; cbn [write_ext]; cbn [ext_fits] in F.
  1,2,3,5: destruct a; unfold write_admin; rewrite !blen_cons, blen_app, !be_enc_blen; reflexivity.
  1,2: rewrite !blen_cons, blen_app, !be_enc_blen; reflexivity.
  - destruct o; cbn in F; unfold write_opaque; rewrite ?blen_cons, ?blen_app, ?be_enc_blen; try reflexivity.
    destruct F as [_ [_ [_ [L _]]]]. lia.
  - destruct F as [_ [L _]]. rewrite !blen_cons. lia.
  - destruct e; cbn in F; unfold write_evpn, octets in *; rewrite ?blen_cons, ?blen_app, ?be_enc_blen; try reflexivity; lia.
  - destruct F as [_ [_ [L _]]]. rewrite !blen_cons. lia.
  - destruct F as [_ [_ [_ [_ [L _]]]]]. rewrite !blen_cons. lia.
Qed.
Lemma write_ext6_len c : ext6_fits c -> blen (write_ext6 c) = 20.
Proof.
  intros F. destruct c as [a|st g l|code st v]; cbn [write_ext6]; cbn [ext6_fits] in F.
  - destruct a; unfold write_admin; rewrite !blen_cons, blen_app, !be_enc_blen; reflexivity.
  - rewrite !blen_cons, blen_app, !be_enc_blen; reflexivity.
  - destruct F as [_ [_ [_ [_ [L _]]]]]. rewrite !blen_cons. lia.
Qed.

(* ---- every eight octets ---- *)
Lemma octets_ok n b : octets n b -> bytes_ok b = true.
Proof. intros [_ F]. unfold bytes_ok. apply forallb_forall. intros x I. rewrite Forall_forall in F. specialize (F x I). unfold byte_ok, octet in *. lia. Qed.
Lemma octets_app n m a b : octets n a -> octets m b -> octets (n + m) (a ++ b).
Proof. intros [L F] [L' F']. split; [rewrite blen_app; lia|apply Forall_app; split; assumption]. Qed.
Lemma split_octets n m v : octets (n + m) v -> exists a b, v = a ++ b /\ octets n a /\ octets m b.
Proof.
  intros [L F]. exists (take n v), (drop n v). rewrite <- (take_drop n v) in F. apply Forall_app in F. destruct F as [F1 F2].
  split; [symmetry; apply take_drop|]. split; split; try assumption; [|rewrite blen_drop; lia].
  unfold blen, take in *. rewrite firstn_length. lia.
Qed.
Lemma be_octets (k : nat) b : octets (N.of_nat k) b -> be_enc k (be_val b) = b /\ be_val b < 256 ^ N.of_nat k /\ parses (read_be (N.of_nat k)) b (be_val b).
Proof.
  intros O. pose proof (octets_ok _ _ O) as K. destruct O as [L _]. unfold blen in L. assert (E : k = length b) by lia. subst k.
  split; [apply be_enc_val; exact K|]. split; [apply be_val_bound; exact K|apply parses_be_raw; reflexivity].
Qed.
Definition admin_of {K} (of : N -> option K) st g l : admin K := match of st with Some k => Assigned k g l | None => Unassigned st g l end.
Lemma a_admin {K} (gw lw : nat) (of : N -> option K) code st v : octets (N.of_nat gw + N.of_nat lw) v ->
  exists g l, parses (parse_admin (N.of_nat gw) (N.of_nat lw) of) (st :: v) (admin_of of st g l) /\ g < 256 ^ N.of_nat gw /\ l < 256 ^ N.of_nat lw /\
    ((forall k, of st = Some k -> code k = st) -> write_admin gw lw code (admin_of of st g l) = st :: v).
Proof.
  intros O. destruct (split_octets _ _ _ O) as [a [b [-> [A B]]]]. destruct (be_octets _ _ A) as [A1 [A2 A3]]. destruct (be_octets _ _ B) as [B1 [B2 B3]].
  exists (be_val a), (be_val b). split; [|split; [exact A2|split; [exact B2|]]].
  - unfold parse_admin. apply (parses_cons (ret tt)). eapply parses_bind; [exact A3|]. eapply parses_bind_ret; [exact B3|apply parses_ret].
  - intros C. unfold admin_of. destruct (of st) as [k|] eqn:E; unfold write_admin; rewrite A1, B1; [rewrite (C k eq_refl)|]; reflexivity.
Qed.
Lemma a_plain {T} (gw lw : nat) (mk : N -> N -> N -> T) st v : octets (N.of_nat gw + N.of_nat lw) v ->
  exists g l, parses (parse_plain (N.of_nat gw) (N.of_nat lw) mk) (st :: v) (mk st g l) /\ g < 256 ^ N.of_nat gw /\ l < 256 ^ N.of_nat lw /\
    be_enc gw g ++ be_enc lw l = v.
Proof.
  intros O. destruct (split_octets _ _ _ O) as [a [b [-> [A B]]]]. destruct (be_octets _ _ A) as [A1 [A2 A3]]. destruct (be_octets _ _ B) as [B1 [B2 B3]].
  exists (be_val a), (be_val b). split; [|split; [exact A2|split; [exact B2|rewrite A1, B1; reflexivity]]].
  unfold parse_plain. apply (parses_cons (ret tt)). eapply parses_bind; [exact A3|]. eapply parses_bind_ret; [exact B3|apply parses_ret].
Qed.
Lemma octets6 v : octets 6 v -> exists a b c d e f, v = [a; b; c; d; e; f] /\ octet a /\ octet b /\ octet c /\ octet d /\ octet e /\ octet f.
Proof.
  intros [L F]. unfold blen in L.
  destruct v as [|a [|b [|c [|d [|e [|f [|g v]]]]]]]; cbn [length] in L; try lia.
  exists a, b, c, d, e, f. split; [reflexivity|].
  repeat match goal with H : Forall _ (_ :: _) |- _ => apply Forall_inv in H as ?X; apply Forall_inv_tail in H end. auto 10.
Qed.
Lemma four_octets a b c d : octet a -> octet b -> octet c -> octet d -> octets (N.of_nat 4) [a; b; c; d].
Proof. intros. split; [reflexivity|repeat constructor; assumption]. Qed.
Lemma two_octets a b : octet a -> octet b -> octets (N.of_nat 2) [a; b].
Proof. intros. split; [reflexivity|repeat constructor; assumption]. Qed.
Lemma a_opaque st v : octet st -> octets 6 v -> exists o, parses parse_opaque (st :: v) o /\ opaque_fits o /\
  (reserved_clear (3 :: st :: v) -> write_opaque o = st :: v).
Proof.
  intros S V.
  assert (Q : st <> 9 -> st <> 13 -> parses parse_opaque (st :: v) (OpUnassigned st v)).
  { intros N1 N2. apply (p_opaque (OpUnassigned st v)). cbn. auto. }
  destruct (N.eq_dec st 9) as [->|N1]; [|destruct (N.eq_dec st 13) as [->|N2]].
  - destruct (octets6 v V) as [a [b [c [d [e [f [-> [A [B [C [D [E F]]]]]]]]]]]]. destruct (be_octets 4 _ (four_octets c d e f C D E F)) as [R1 [R2 R3]].
    exists (Upa (N.land a 128 =? 128) (be_val [c; d; e; f])). split; [|split; [exact R2|]].
    + unfold parse_opaque. do 3 apply (parses_cons (ret tt)). eapply parses_bind_ret; [exact R3|apply parses_ret].
    + cbn [reserved_clear]. intros [Z ->]. unfold write_opaque. rewrite R1. destruct Z as [-> | ->]; reflexivity.
  - exists DefaultGateway. split; [|split; [exact I|]].
    + unfold parse_opaque. apply (parses_cons (ret tt)). eapply parses_bind_ret; [apply parses_bytes; symmetry; apply V|apply parses_ret].
    + cbn [reserved_clear]. intros ->. reflexivity.
  - exists (OpUnassigned st v). split; [exact (Q N1 N2)|]. split; [cbn; auto|reflexivity].
Qed.
Lemma a_evpn st v : octet st -> octets 6 v -> exists e, parses parse_evpn (st :: v) e /\ evpn_fits e /\
  (reserved_clear (6 :: st :: v) -> write_evpn e = st :: v).
Proof.
  intros S V. destruct (octets6 v V) as [a [b [c [d [e [f [E0 [A [B [C [D [E F]]]]]]]]]]]].
  destruct (N.eq_dec st 0) as [->|N0]; [|destruct (N.eq_dec st 1) as [->|N1]; [|destruct (N.eq_dec st 2) as [->|N2];
    [|destruct (N.eq_dec st 3) as [->|N3]; [|destruct (N.eq_dec st 4) as [->|N4]]]]]; [| | | | |clear E0].
  - subst v. destruct (be_octets 4 _ (four_octets c d e f C D E F)) as [R1 [R2 R3]]. exists (MacMobility a (be_val [c; d; e; f])).
    split; [|split; [split; [exact A|exact R2]|]].
    + unfold parse_evpn. do 3 apply (parses_cons (ret tt)). eapply parses_bind_ret; [exact R3|apply parses_ret].
    + cbn [reserved_clear]. intros ->. unfold write_evpn. rewrite R1. reflexivity.
  - subst v. exists (EsiLabel a [d; e; f]). split; [|split; [split; [exact A|split; [reflexivity|repeat constructor; assumption]]|]].
    + unfold parse_evpn. do 2 apply (parses_cons (ret tt)). change [b; c; d; e; f] with ([b; c] ++ [d; e; f]).
      eapply parses_bind; [apply parses_be_raw; reflexivity|]. eapply parses_bind_ret; [apply parses_bytes; reflexivity|apply parses_ret].
    + cbn [reserved_clear]. intros [-> ->]. reflexivity.
  - exists (EsImport v). split; [|split; [exact V|reflexivity]]. apply (p_evpn (EsImport v)). exact V.
  - exists (RoutersMac v). split; [|split; [exact V|reflexivity]]. apply (p_evpn (RoutersMac v)). exact V.
  - subst v. destruct (be_octets 2 _ (two_octets a b A B)) as [R1 [R2 R3]]. destruct (be_octets 2 _ (two_octets c d C D)) as [T1 [T2 T3]].
    exists (L2Attribute (be_val [a; b]) (be_val [c; d])). split; [|split; [split; [exact R2|exact T2]|]].
    + unfold parse_evpn. apply (parses_cons (ret tt)). change [a; b; c; d; e; f] with ([a; b] ++ [c; d] ++ [e; f]).
      eapply parses_bind; [exact R3|]. eapply parses_bind; [exact T3|]. eapply parses_bind_ret; [apply parses_be_raw; reflexivity|apply parses_ret].
    + cbn [reserved_clear]. intros [-> ->]. unfold write_evpn. rewrite R1, T1. reflexivity.
  - assert (G : 4 < st) by lia. exists (EvUnassigned st v). split; [apply (p_evpn (EvUnassigned st v)); cbn; auto|]. split; [cbn; auto|reflexivity].
Qed.
Lemma admin_fits_of {K} gm lm numbers (of : N -> option K) st g l (P : K -> Prop) : octet st -> g < gm -> l < lm ->
  (exists k, of st = Some k /\ P k) \/ (of st = None /\ ~ In st numbers) -> admin_fits gm lm numbers (admin_of of st g l).
Proof. intros S G L [[k [E _]]|[E Q]]; unfold admin_of; rewrite E; cbn; auto. Qed.
Lemma ext_any code st v : octet code -> octet st -> octets 6 v -> exists c, parses parse_ext (code :: st :: v) c /\ ext_fits c /\
  (reserved_clear (code :: st :: v) -> ~ source_as_octets (code :: st :: v) -> write_ext c = code :: st :: v).
Proof.
  intros C S V.
  assert (TY : typed code \/ ~ typed code).
  { unfold typed. destruct (in_dec N.eq_dec code [0; 1; 2; 3; 6; 64; 65; 66; 67]); tauto. }
  destruct TY as [T|T].
  - cbn in T. repeat (destruct T as [T|T]; [subst code|]); [| | | | | | | | |destruct T].
    + destruct (a_admin 2 4 two_of two_code st v V) as [g [l [P [G [L W]]]]]. exists (TwoOctet (admin_of two_of st g l)).
      split; [apply (parses_cons (ret tt)), p_as; exact P|]. split; [exact (admin_fits_of _ _ _ _ _ _ _ _ S G L (two_table st))|].
      intros _ N. cbn [write_ext]. f_equal. apply W. intros k E. destruct (two_table st) as [[k' [E' [[->|Q1] Q2]]]|[E' _]]; [|congruence|congruence].
      destruct N. rewrite (Q2 eq_refl). exact I.
    + destruct (a_admin 4 2 ip4_of ip4_code st v V) as [g [l [P [G [L W]]]]]. exists (Ip4 (admin_of ip4_of st g l)).
      split; [apply (parses_cons (ret tt)), p_as; exact P|]. split; [exact (admin_fits_of _ _ _ _ _ _ _ _ S G L (ip4_table st))|].
      intros _ N. cbn [write_ext]. f_equal. apply W. intros k E. destruct (ip4_table st) as [[k' [E' Q]]|[E' _]]; congruence.
    + destruct (a_admin 4 2 four_of four_code st v V) as [g [l [P [G [L W]]]]]. exists (Four (admin_of four_of st g l)).
      split; [apply (parses_cons (ret tt)), p_as; exact P|]. split; [exact (admin_fits_of _ _ _ _ _ _ _ _ S G L (four_table st))|].
      intros _ N. cbn [write_ext]. f_equal. apply W. intros k E. destruct (four_table st) as [[k' [E' [[->|Q1] Q2]]]|[E' _]]; [|congruence|congruence].
      destruct N. rewrite (Q2 eq_refl). exact I.
    + destruct (a_opaque st v S V) as [o [P [F W]]]. exists (Opaque o). split; [apply (parses_cons (ret tt)), p_as; exact P|]. split; [exact F|].
      intros R _. cbn [write_ext]. f_equal. exact (W R).
    + destruct (a_evpn st v S V) as [o [P [F W]]]. exists (Evpn o). split; [apply (parses_cons (ret tt)), p_as; exact P|]. split; [exact F|].
      intros R _. cbn [write_ext]. f_equal. exact (W R).
    + destruct (a_admin 2 4 ntwo_of ntwo_code st v V) as [g [l [P [G [L W]]]]]. exists (NTwoOctet (admin_of ntwo_of st g l)).
      split; [apply (parses_cons (ret tt)), p_as; exact P|]. split; [exact (admin_fits_of _ _ _ _ _ _ _ _ S G L (ntwo_table st))|].
      intros _ N. cbn [write_ext]. f_equal. apply W. intros k E. destruct (ntwo_table st) as [[k' [E' Q]]|[E' _]]; congruence.
    + destruct (a_plain 4 2 NIp4 st v V) as [g [l [P [G [L W]]]]]. exists (NIp4 st g l).
      split; [apply (parses_cons (ret tt)); exact P|]. split; [split; [exact S|split; [exact G|exact L]]|]. intros _ _. cbn [write_ext]. rewrite W. reflexivity.
    + destruct (a_plain 4 2 NFour st v V) as [g [l [P [G [L W]]]]]. exists (NFour st g l).
      split; [apply (parses_cons (ret tt)); exact P|]. split; [split; [exact S|split; [exact G|exact L]]|]. intros _ _. cbn [write_ext]. rewrite W. reflexivity.
    + exists (NOpaque st v). split; [apply (parses_cons (ret tt)), p_raw; exact V|]. split; [split; assumption|reflexivity].
  - destruct (is_experimental code) eqn:X.
    + exists (Experimental code st v). split; [|split; [split; [apply experimental_iff; exact X|split; assumption]|reflexivity]].
      apply p_rest; [exact T|]. unfold rest_of. rewrite X. apply p_raw. exact V.
    + exists (Unknown code st v).
      split; [|split; [split; [exact C|split; [exact T|split; [|split; assumption]]]|reflexivity]].
      * apply p_rest; [exact T|]. unfold rest_of. rewrite X. apply p_raw. exact V.
      * intros K. apply experimental_iff in K. congruence.
Qed.
Lemma ext6_any code st v : octet code -> octet st -> octets 18 v -> exists c, parses parse_ext6 (code :: st :: v) c /\ ext6_fits c /\
  write_ext6 c = code :: st :: v.
Proof.
  intros C S V. destruct (N.eq_dec code 0) as [->|N1]; [|destruct (N.eq_dec code 64) as [->|N2]].
  - destruct (a_admin 16 2 ip6_of ip6_code st v V) as [g [l [P [G [L W]]]]]. exists (Ip6 (admin_of ip6_of st g l)).
    split; [apply (parses_cons (ret tt)), p_as; exact P|]. split; [exact (admin_fits_of _ _ _ _ _ _ _ _ S G L (ip6_table st))|].
    cbn [write_ext6]. f_equal. apply W. intros k E. destruct (ip6_table st) as [[k' [E' Q]]|[E' _]]; congruence.
  - destruct (a_plain 16 2 NIp6 st v V) as [g [l [P [G [L W]]]]]. exists (NIp6 st g l).
    split; [apply (parses_cons (ret tt)); exact P|]. split; [split; [exact S|split; [exact G|exact L]]|]. cbn [write_ext6]. rewrite W. reflexivity.
  - exists (Unknown6 code st v). assert (F : ext6_fits (Unknown6 code st v)) by (cbn; auto).
    split; [exact (p_ext6 _ F)|]. split; [exact F|reflexivity].
Qed.
Lemma octets_two n b : octets (2 + n) b -> exists code st v, b = code :: st :: v /\ octet code /\ octet st /\ octets n v.
Proof.
  intros [L F]. destruct b as [|code [|st v]]; try (unfold blen in L; cbn in L; lia).
  rewrite !blen_cons in L. exists code, st, v. inversion F as [|? ? F1 F2]; subst. inversion F2; subst.
  split; [reflexivity|]. split; [assumption|]. split; [assumption|]. split; [lia|assumption].
Qed.

(* ---- transitivity ---- *)
Lemma bit6 code : (N.land code 64 =? 0) = negb (N.testbit code 6).
Proof. destruct code as [|p]; [reflexivity|]. do 7 (try (destruct p as [p|p|]; try reflexivity)). Qed.
Lemma bit7 code : negb (N.land code 128 =? 0) = N.testbit code 7.
Proof. destruct code as [|p]; [reflexivity|]. do 8 (try (destruct p as [p|p|]; try reflexivity)). Qed.

(* ---- text ---- *)
Definition plain_text (l : list N) : Prop := Forall (fun c => c <> colon) l.
Lemma dec_inj a b : dec a = dec b -> a = b.
Proof. intros H. rewrite <- (dec_val_dec a), <- (dec_val_dec b), H. reflexivity. Qed.
Lemma dec_text n : plain_text (dec n).
Proof.
  pose proof (dec_digits n) as D. rewrite forallb_forall in D. apply Forall_forall. intros c I. specialize (D c I). unfold digit in D.
  unfold colon. lia.
Qed.
Lemma split_colon a b x y : plain_text a -> plain_text b -> a ++ colon :: x = b ++ colon :: y -> a = b /\ x = y.
Proof.
  intros A. revert b. induction A as [|c a Hc A IH]; intros b B H.
  - destruct b as [|d b]; cbn in H; [injection H as H2; split; [reflexivity|exact H2]|]. injection H as H1 H2. inversion B. congruence.
  - destruct B as [|d b Hd B]; cbn in H; injection H as H1 H2; [congruence|].
    destruct (IH b B H2) as [-> ->]. split; [congruence|reflexivity].
Qed.
Lemma dec_colon a b x y : dec a ++ colon :: x = dec b ++ colon :: y -> a = b /\ x = y.
Proof. intros H. apply split_colon in H; [|apply dec_text|apply dec_text]. destruct H as [H ->]. split; [apply dec_inj; exact H|reflexivity]. Qed.
Lemma halves v : v < 2 ^ 32 -> collection_asn v * 65536 + collection_value v = v /\ collection_asn v < 65536 /\ collection_value v < 65536.
Proof.
  intros H. unfold collection_asn, collection_value. change 0xFFFF with (N.ones 16). rewrite !N.land_ones, N.shiftr_div_pow2.
  change (2 ^ 16) with 65536. change (2 ^ 32) with 4294967296 in H. lia.
Qed.
Definition wk_table : list (N * list N) :=
  [(0xFFFF0000, txt "GracefulShutdown"); (0xFFFF0001, txt "AcceptOwn"); (0xFFFF0006, txt "LlgrStale"); (0xFFFF0007, txt "NoLlgr");
   (0xFFFF0009, txt "StandbyPe"); (0xFFFF029A, txt "BlackHole"); (0xFFFFFF01, txt "NoExport"); (0xFFFFFF02, txt "NoAdvertise");
   (0xFFFFFF03, txt "NoExportSubConfederation"); (0xFFFFFF04, txt "NoPeer")]%string.
Lemma wk_in v t : well_known v = Some t -> In (v, t) wk_table.
Proof.
  intros H. unfold well_known in H. destruct v as [|p]; [discriminate H|].
  do 32 (try (destruct p as [p|p|]; try discriminate H)); injection H as <-; unfold wk_table; repeat (first [left; reflexivity|right]).
Qed.
Lemma wk_inj v w t : well_known v = Some t -> well_known w = Some t -> v = w.
Proof.
  intros V W. apply wk_in in V. apply wk_in in W. unfold wk_table in V, W.
  repeat (destruct V as [V|V]; [injection V as <- <-; repeat (destruct W as [W|W]; [first [discriminate W|injection W as <-; reflexivity]|]); destruct W|]).
  destruct V.
Qed.
Lemma wk_letter v t : well_known v = Some t -> exists c r, t = c :: r /\ 64 < c.
Proof.
  intros V. apply wk_in in V. unfold wk_table in V.
  repeat (destruct V as [V|V]; [injection V as _ <-; eexists; eexists; split; [reflexivity|reflexivity]|]). destruct V.
Qed.
Lemma dec_letter n x c r : dec n ++ colon :: x = c :: r -> c <= 58.
Proof.
  pose proof (dec_digits n) as D. destruct (dec n) as [|d l]; cbn; intros H; injection H as <- _; [unfold colon; lia|].
  cbn in D. unfold digit in D. lia.
Qed.
Lemma show_community_inj v w : v < 2 ^ 32 -> w < 2 ^ 32 -> show_community v = show_community w -> v = w.
Proof.
  intros V W H. unfold show_community in H. destruct (well_known v) as [t|] eqn:EV, (well_known w) as [u|] eqn:EW.
  - subst u. exact (wk_inj _ _ _ EV EW).
  - destruct (wk_letter _ _ EV) as [c [r [-> L]]]. symmetry in H. apply dec_letter in H. lia.
  - destruct (wk_letter _ _ EW) as [c [r [-> L]]]. apply dec_letter in H. lia.
  - apply dec_colon in H. destruct H as [H1 H2]. apply dec_inj in H2. destruct (halves v V) as [E1 _]. destruct (halves w W) as [E2 _].
    unfold collection_asn, collection_value in *. rewrite <- E1, <- E2, H1, H2. reflexivity.
Qed.
Lemma show_large_inj a b c a' b' c' : show_large a b c = show_large a' b' c' -> a = a' /\ b = b' /\ c = c'.
Proof.
  intros H. unfold show_large in H. apply dec_colon in H. destruct H as [-> H]. apply dec_colon in H. destruct H as [-> H].
  apply dec_inj in H. auto.
Qed.
Lemma show_named_inj n n' g g' l l' : plain_text n -> plain_text n' -> show_named n g l = show_named n' g' l' -> n = n' /\ g = g' /\ l = l'.
Proof.
  intros A B H. unfold show_named in H. apply split_colon in H; [|exact A|exact B]. destruct H as [-> H]. apply dec_colon in H.
  destruct H as [-> H]. apply dec_inj in H. auto.
Qed.
Lemma unassigned_text st : plain_text (txt "unassigned-" ++ dec st).
Proof. apply Forall_app. split; [|apply dec_text]. repeat constructor; discriminate. Qed.
Lemma two_text_plain k : plain_text (two_text k).
Proof. destruct k; unfold plain_text; cbn; repeat constructor; discriminate. Qed.
Lemma ntwo_text_plain k : plain_text (ntwo_text k).
Proof. destruct k; unfold plain_text; cbn; repeat constructor; discriminate. Qed.
Lemma four_text_plain k : plain_text (four_text k).
Proof. destruct k; unfold plain_text; cbn; repeat constructor; discriminate. Qed.
Lemma show_admin_inj {K} (name : K -> list N) (a b : admin K) : (forall k, plain_text (name k)) -> (forall k k', name k = name k' -> k = k') ->
  (forall k, hd 0 (name k) <> 117) -> show_admin name a = show_admin name b -> a = b.
Proof.
  intros P J U H. destruct a as [k g l|st g l], b as [k' g' l'|st' g' l']; cbn [show_admin] in H; apply show_named_inj in H;
    auto using unassigned_text; destruct H as [H [-> ->]].
  - rewrite (J _ _ H). reflexivity.
  - exfalso. apply (U k). rewrite H. reflexivity.
  - exfalso. apply (U k'). rewrite <- H. reflexivity.
  - apply app_inv_head, dec_inj in H. subst. reflexivity.
Qed.
Lemma two_admin_inj a b : show_admin two_text a = show_admin two_text b -> a = b.
Proof. apply show_admin_inj; [exact two_text_plain|intros [] []; cbn; intros H; first [reflexivity|discriminate H]|intros []; discriminate]. Qed.
Lemma ntwo_admin_inj a b : show_admin ntwo_text a = show_admin ntwo_text b -> a = b.
Proof. apply show_admin_inj; [exact ntwo_text_plain|intros [] []; cbn; intros H; first [reflexivity|discriminate H]|intros []; discriminate]. Qed.
Lemma four_admin_inj a b : show_admin four_text a = show_admin four_text b -> a = b.
Proof. apply show_admin_inj; [exact four_text_plain|intros [] []; cbn; intros H; first [reflexivity|discriminate H]|intros []; discriminate]. Qed.
