From Verif Require Import Base BaseLemmas AfModel MapLib FlModel ReaderProofs.

(* [eats k p]: whenever p succeeds it has consumed at least k octets *)
Definition eats {E A} (k : N) (p : parser E A) : Prop :=
  forall r a, snd (p r) = Ok a -> k + blen (rbuf (fst (p r))) <= blen (rbuf r).
Lemma eats_0 {E A} (p : parser E A) : safe p -> eats 0 p.
Proof.
  intros H r a _. destruct (H r) as [Ha _]. apply adv_len in Ha. unfold blen. lia.
Qed.
Lemma eats_weaken {E A} j k (p : parser E A) : eats k p -> j <= k -> eats j p.
Proof. intros H Hj r a Ha. specialize (H r a Ha). lia. Qed.
Lemma eats_bind {E A B} j k (p : parser E A) (f : A -> parser E B) :
  eats j p -> (forall a, eats k (f a)) -> eats (j + k) (bind p f).
Proof.
  intros Hp Hf r b. unfold bind. specialize (Hp r).
  destruct (p r) as [r' x]. cbn [fst snd] in *.
  destruct x as [a|e| |]; cbn [fst snd]; try discriminate.
  intros Hb. specialize (Hp a eq_refl). specialize (Hf a r' b Hb). lia.
Qed.
Lemma eats_map_err {E F A} k (g : E -> F) (p : parser E A) : eats k p -> eats k (pmap_err g p).
Proof.
  intros Hp r a. unfold pmap_err. specialize (Hp r). destruct (p r) as [r' x].
  cbn [fst snd] in *. destruct x as [y|e| |]; cbn; try discriminate. intros H. apply (Hp y). reflexivity.
Qed.
Lemma eats_fail {E A} k (e : E) : eats k (@fail E A e).
Proof. intros r a; cbn; discriminate. Qed.
Lemma eats_u8 : eats 1 read_u8.
Proof.
  intros [b o] a. unfold read_u8; cbn [rbuf]. destruct b as [|v b]; cbn [fst snd rbuf]; [discriminate|].
  intros _. rewrite blen_cons. lia.
Qed.
Lemma eats_bytes n : eats n (read_bytes n).
Proof.
  intros [b o] a. unfold read_bytes; cbn [rbuf roff].
  destruct (blen b <? n) eqn:Hb; cbn [fst snd]; [discriminate|].
  intros _. cbn [rbuf]. rewrite blen_drop. lia.
Qed.
Lemma eats_be n : eats n (read_be n).
Proof.
  unfold read_be. eapply eats_weaken; [apply eats_bind; [apply eats_bytes|intros; apply eats_0, safe_ret]|lia].
Qed.
Lemma strict_eats {E A} (p : parser E A) : eats 1 p -> strict p.
Proof. intros H r a Ha. specialize (H r a Ha). unfold blen in H. lia. Qed.

Lemma safe_unsigned32 len : safe (read_unsigned32_be len).
Proof.
  destruct (N.ltb_spec 4 len) as [H|H].
  - intros r. rewrite unsigned_too_wide32 by assumption. split; [apply adv_refl|exact I].
  - assert (C : len = 0 \/ len = 1 \/ len = 2 \/ len = 3 \/ len = 4) by lia.
    destruct C as [->|[->|[->|[->| ->]]]]; cbn [read_unsigned32_be]; try apply safe_be; apply safe_ret.
Qed.
Lemma safe_unsigned64 len : safe (read_unsigned64_be len).
Proof.
  destruct (N.ltb_spec 8 len) as [H|H].
  - intros r. rewrite unsigned_too_wide64 by assumption. split; [apply adv_refl|exact I].
  - destruct (le8_cases len H) as [C|C]; [|repeat destruct C as [C|C]]; subst;
      cbn [read_unsigned64_be]; try apply safe_be; apply safe_ret.
Qed.
Lemma eats_unsigned32 len : eats len (read_unsigned32_be len).
Proof.
  destruct (N.ltb_spec 4 len) as [H|H].
  - intros r a. rewrite unsigned_too_wide32 by assumption. cbn; discriminate.
  - assert (C : len = 0 \/ len = 1 \/ len = 2 \/ len = 3 \/ len = 4) by lia.
    destruct C as [->|[->|[->|[->| ->]]]]; cbn [read_unsigned32_be]; try apply eats_be.
    apply eats_0, safe_ret.
Qed.
Lemma eats_unsigned64 len : eats len (read_unsigned64_be len).
Proof.
  destruct (N.ltb_spec 8 len) as [H|H].
  - intros r a. rewrite unsigned_too_wide64 by assumption. cbn; discriminate.
  - destruct (le8_cases len H) as [C|C]; [|repeat destruct C as [C|C]]; subst;
      cbn [read_unsigned64_be]; try apply eats_be. apply eats_0, safe_ret.
Qed.
Lemma eats_bind_l {E A B} k (p : parser E A) (f : A -> parser E B) :
  eats k p -> (forall a, safe (f a)) -> eats k (bind p f).
Proof.
  intros Hp Hf. eapply eats_weaken; [apply eats_bind; [exact Hp|intros a; apply eats_0, Hf]|lia].
Qed.
Lemma safe_signed32 len : safe (read_signed32_be len).
Proof. unfold read_signed32_be. apply safe_bind; [apply safe_unsigned32|intros; apply safe_ret]. Qed.
Lemma safe_signed64 len : safe (read_signed64_be len).
Proof. unfold read_signed64_be. apply safe_bind; [apply safe_unsigned64|intros; apply safe_ret]. Qed.
Lemma eats_signed32 len : eats len (read_signed32_be len).
Proof. unfold read_signed32_be. apply eats_bind_l; [apply eats_unsigned32|intros; apply safe_ret]. Qed.
Lemma eats_signed64 len : eats len (read_signed64_be len).
Proof. unfold read_signed64_be. apply eats_bind_l; [apply eats_unsigned64|intros; apply safe_ret]. Qed.
Lemma eats_padded n len : eats len (read_padded n len).
Proof.
  unfold read_padded. destruct (n <? len).
  - intros r a; cbn; discriminate.
  - apply eats_bind_l; [apply eats_bytes|intros; apply safe_ret].
Qed.

Section S.
Context (iana : N -> option dtype) (vendor : N -> option (N -> option dtype)) (millis_ok : Z -> bool).

Lemma safe_varlen : safe read_varlen.
Proof.
  unfold read_varlen. apply safe_bind; [apply safe_map_err, safe_u8|]. intros a.
  destruct (a =? 255); [apply safe_map_err, safe_unsigned32|apply safe_ret].
Qed.
Lemma eats_varlen : eats 1 read_varlen.
Proof.
  unfold read_varlen. apply eats_bind_l; [apply eats_map_err, eats_u8|]. intros a.
  destruct (a =? 255); [apply safe_map_err, safe_unsigned32|apply safe_ret].
Qed.
Lemma safe_len len : safe (read_len len).
Proof. unfold read_len. destruct (len =? 65535); [apply safe_varlen|apply safe_ret]. Qed.

Ltac vsafe := repeat first
  [ progress psafe | apply safe_unsigned32 | apply safe_unsigned64 | apply safe_signed32
  | apply safe_signed64 | apply safe_varlen | apply safe_len ].

Lemma safe_value t len : safe (p_value millis_ok t len).
Proof. destruct t; unfold p_value; vsafe. Qed.
Lemma safe_field pen id len : safe (p_field iana vendor millis_ok pen id len).
Proof.
  unfold p_field. destruct (classify iana vendor pen id) as [[t| |]|]; vsafe.
  apply safe_value.
Qed.
Definition least (len : N) : N := if len =? 65535 then 1 else len.
Lemma eats_octets {A} len (g : list N -> parser ferr A) : (forall b, safe (g b)) ->
  eats (least len) (do n <- read_len len;; do b <- lift (read_bytes n);; g b).
Proof.
  intros Hg. unfold read_len, least. destruct (len =? 65535) eqn:E.
  - apply eats_bind_l; [apply eats_varlen|]. intros a. psafe. apply Hg.
  - intros r a H. apply (eats_bind_l len (lift (read_bytes len)) g) in H; auto.
    apply eats_map_err, eats_bytes.
Qed.
Ltac vsafe' := vsafe.
Lemma eats_value t len : eats (least len) (p_value millis_ok t len).
Proof.
  destruct t; unfold p_value;
    try (apply eats_octets; intros; apply safe_ret).
  all: try match goal with
    |- eats _ (if negb (?l =? ?n) then _ else _) =>
      destruct (N.eqb_spec l n) as [->|_]; cbn [negb]; [|apply eats_fail];
      apply eats_bind_l; [apply eats_map_err; first [apply eats_u8|apply eats_be|apply eats_bytes]|intros; vsafe']
    end.
  all: try match goal with
    |- eats _ (if ?l =? 1 then _ else _) =>
      destruct (N.eqb_spec l 1) as [->|_];
      [apply eats_bind_l; [apply eats_map_err, eats_u8|intros; vsafe']|];
      destruct (N.eqb_spec l 2) as [->|_]; [|apply eats_fail];
      apply eats_bind_l; [apply eats_map_err, eats_be|intros; vsafe']
    end.
  all: try match goal with
    |- eats _ (if ?a <? ?l then _ else _) =>
      destruct (N.ltb_spec a l) as [_|H]; [apply eats_fail|];
      unfold least; replace (l =? 65535) with false by lia;
      apply eats_bind_l; [apply eats_map_err; first [apply eats_unsigned32|apply eats_unsigned64|apply eats_signed32|apply eats_signed64|apply eats_padded]|intros; vsafe']
    end.
  - (* string *)
    unfold least. destruct (N.eqb_spec len 65535) as [->|_].
    + apply eats_bind_l; [|intros; vsafe']. apply eats_bind_l; [apply eats_varlen|intros; vsafe'].
    + apply eats_bind_l; [|intros; vsafe']. apply eats_bind_l; [apply eats_map_err, eats_bytes|intros; vsafe'].
  - destruct (N.eqb_spec len 8) as [->|_]; cbn [negb]; [|apply eats_fail].
    change (least 8) with (4 + (4 + 0)).
    apply eats_bind; [apply eats_map_err, eats_be|intros s].
    apply eats_bind; [apply eats_map_err, eats_be|intros f]. apply eats_0. vsafe'.
  - destruct (N.eqb_spec len 8) as [->|_]; cbn [negb]; [|apply eats_fail].
    change (least 8) with (4 + (4 + 0)).
    apply eats_bind; [apply eats_map_err, eats_be|intros s].
    apply eats_bind; [apply eats_map_err, eats_be|intros f]. apply eats_0. vsafe'.
Qed.
Lemma eats_field pen id len : eats (least len) (p_field iana vendor millis_ok pen id len).
Proof.
  unfold p_field. destruct (classify iana vendor pen id) as [[t| |]|].
  - apply eats_bind_l; [apply eats_value|intros; apply safe_ret].
  - apply eats_octets. intros; apply safe_ret.
  - apply eats_bind_l; [|intros; apply safe_ret]. apply eats_map_err.
    eapply eats_weaken; [apply eats_bytes|]. unfold least. destruct (N.eqb_spec len 65535); lia.
  - apply eats_bind_l; [|intros; apply safe_ret]. apply eats_map_err.
    eapply eats_weaken; [apply eats_bytes|]. unfold least. destruct (N.eqb_spec len 65535); lia.
Qed.
Lemma safe_fspec : safe (p_fspec iana vendor).
Proof. unfold p_fspec. vsafe. Qed.
Lemma eats_fspec : eats 4 (p_fspec iana vendor).
Proof.
  unfold p_fspec. change 4 with (2 + (2 + 0)).
  apply eats_bind; [apply eats_map_err, eats_be|intros code].
  apply eats_bind; [apply eats_map_err, eats_be|intros len]. apply eats_0. vsafe.
Qed.

(* ------------- lists of parsers ------------- *)
Lemma safe_times {A} n (p : parser ferr A) : safe p -> safe (ptimes n p).
Proof. intros H. induction n as [|n IH]; cbn [ptimes]; psafe. Qed.
Lemma safe_mapm {X A} (p : X -> parser ferr A) l : (forall x, safe (p x)) -> safe (pmapm p l).
Proof. intros H. induction l as [|x l IH]; cbn [pmapm]; psafe. apply H. Qed.
Lemma eats_mapm {X A} (p : X -> parser ferr A) (c : X -> N) l :
  (forall x, eats (c x) (p x)) -> eats (nsum (map c l)) (pmapm p l).
Proof.
  intros H. induction l as [|x l IH]; cbn [pmapm map nsum fold_right].
  - apply eats_0, safe_ret.
  - apply eats_bind; [apply H|]. intros a. fold (nsum (map c l)).
    replace (nsum (map c l)) with (nsum (map c l) + 0) by lia.
    apply eats_bind; [exact IH|]. intros ?. apply eats_0, safe_ret.
Qed.
End S.

(* ------------- parsers with a templates map ------------- *)
Definition ssafe {T A} (p : sparser T A) : Prop :=
  forall t r, adv r (snd (fst (p t r))) /\ no_crash (snd (p t r)).
Definition seats {T A} (k : N) (p : sparser T A) : Prop :=
  forall t r a, snd (p t r) = Ok a -> k + blen (rbuf (snd (fst (p t r)))) <= blen (rbuf r).
Lemma ssafe_ret {T A} (a : A) : ssafe (@sret T A a).
Proof. intros t r; split; [apply adv_refl|exact I]. Qed.
Lemma ssafe_fail {T A} e : ssafe (@sfail T A e).
Proof. intros t r; split; [apply adv_refl|exact I]. Qed.
Lemma ssafe_get {T} : ssafe (@sget T).
Proof. intros t r; split; [apply adv_refl|exact I]. Qed.
Lemma ssafe_mod {T} (f : T -> T) : ssafe (smod f).
Proof. intros t r; split; [apply adv_refl|exact I]. Qed.
Lemma ssafe_bind {T A B} (p : sparser T A) (f : A -> sparser T B) :
  ssafe p -> (forall a, ssafe (f a)) -> ssafe (sbind p f).
Proof.
  intros Hp Hf t r. unfold sbind. destruct (Hp t r) as [Ha Hc].
  destruct (p t r) as [[t' r'] x]. cbn [fst snd] in *.
  destruct x as [a|e| |]; cbn in Hc; try contradiction.
  - destruct (Hf a t' r') as [Ha' Hc']. split; [|exact Hc']. eapply adv_trans; eauto.
  - cbn [fst snd]. split; [exact Ha|exact I].
Qed.
Lemma ssafe_lift {T A} (p : parser ferr A) : safe p -> ssafe (@slift T A p).
Proof.
  intros H t r. unfold slift. destruct (H r) as [Ha Hc]. destruct (p r) as [r' x]. cbn [fst snd] in *. auto.
Qed.
Lemma ssafe_sub {T A} sub (p : sparser T A) : ssafe p -> ssafe (son_sub sub p).
Proof.
  intros H t r. unfold son_sub. destruct (H t sub) as [_ Hc].
  destruct (p t sub) as [[t' r'] x]. cbn [fst snd] in *. split; [apply adv_refl|exact Hc].
Qed.
Lemma seats_0 {T A} (p : sparser T A) : ssafe p -> seats 0 p.
Proof.
  intros H t r a _. destruct (H t r) as [Ha _]. apply adv_len in Ha. unfold blen. lia.
Qed.
Lemma seats_weaken {T A} j k (p : sparser T A) : seats k p -> j <= k -> seats j p.
Proof. intros H Hj t r a Ha. specialize (H t r a Ha). lia. Qed.
Lemma seats_bind {T A B} j k (p : sparser T A) (f : A -> sparser T B) :
  seats j p -> (forall a, seats k (f a)) -> seats (j + k) (sbind p f).
Proof.
  intros Hp Hf t r b. unfold sbind. specialize (Hp t r).
  destruct (p t r) as [[t' r'] x]. cbn [fst snd] in *.
  destruct x as [a|e| |]; cbn [fst snd]; try discriminate.
  intros Hb. specialize (Hp a eq_refl). specialize (Hf a t' r' b Hb). lia.
Qed.
Lemma seats_lift {T A} k (p : parser ferr A) : eats k p -> seats k (@slift T A p).
Proof.
  intros H t r a. unfold slift. specialize (H r). destruct (p r) as [r' x]. cbn [fst snd] in *. apply H.
Qed.
Lemma seats_fail {T A} k e : seats k (@sfail T A e).
Proof. intros t r a; cbn; discriminate. Qed.

Lemma swhile_safe {T A} (cond : reader -> bool) (p : sparser T A) : ssafe p ->
  (forall t r a, cond r = true -> snd (p t r) = Ok a ->
     (length (rbuf (snd (fst (p t r)))) < length (rbuf r))%nat) ->
  forall fuel t r, (length (rbuf r) < fuel)%nat ->
  adv r (snd (fst (swhile fuel cond p t r))) /\ no_crash (snd (swhile fuel cond p t r)).
Proof.
  intros Hs He. induction fuel as [|fuel IH]; intros t r Hf; [lia|]. cbn [swhile].
  destruct (cond r) eqn:Ec; [|split; [apply adv_refl|exact I]].
  unfold sbind. destruct (Hs t r) as [Ha Hc]. specialize (He t r).
  destruct (p t r) as [[t' r'] [a|e| |]]; cbn [fst snd] in *; try contradiction.
  2:{ split; [exact Ha|exact I]. }
  specialize (He a Ec eq_refl).
  assert (Hl : (length (rbuf r') < fuel)%nat) by lia.
  specialize (IH t' r' Hl).
  destruct (swhile fuel cond p t' r') as [[t'' r''] [xs|e| |]]; cbn [fst snd] in *.
  - split; [eapply adv_trans; [exact Ha|tauto]|exact I].
  - split; [eapply adv_trans; [exact Ha|tauto]|exact I].
  - destruct IH as [_ IH]; contradiction.
  - destruct IH as [_ IH]; contradiction.
Qed.
Lemma ssafe_while {T A} (cond : reader -> bool) (p : sparser T A) : ssafe p ->
  (forall t r a, cond r = true -> snd (p t r) = Ok a ->
     (length (rbuf (snd (fst (p t r)))) < length (rbuf r))%nat) ->
  ssafe (swhile_all cond p).
Proof. intros Hs He t r. unfold swhile_all. apply swhile_safe; auto. Qed.
Lemma seats_while_cond {T A} (cond : reader -> bool) (p : sparser T A) :
  seats 1 p -> forall t r a, cond r = true -> snd (p t r) = Ok a ->
     (length (rbuf (snd (fst (p t r)))) < length (rbuf r))%nat.
Proof. intros H t r a _ Ha. specialize (H t r a Ha). unfold blen in H. lia. Qed.
Lemma safe_p_padding : safe p_padding.
Proof.
  intros r. unfold p_padding. destruct (first_nonzero (rbuf r)); cbn [fst snd].
  - split; [apply adv_refl|exact I].
  - split; [|exact I]. exists (rbuf r). cbn [rbuf roff]. rewrite app_nil_r. auto.
Qed.

Section P.
Context (iana : N -> option dtype) (vendor : N -> option (N -> option dtype)) (millis_ok : Z -> bool).
Ltac ssafe1 := repeat first
  [ apply ssafe_ret | apply ssafe_fail | apply ssafe_get | apply ssafe_mod
  | apply ssafe_lift; first [apply safe_p_padding | apply safe_times, safe_fspec | solve [psafe]]
  | apply ssafe_bind; [|intros ?] | apply ssafe_sub
  | match goal with |- ssafe (if ?x then _ else _) => destruct x end ].

Lemma ssafe_trec : ssafe (p_trec iana vendor).
Proof. unfold p_trec. ssafe1. Qed.
Lemma seats_2 {T B} (f : N -> sparser T B) p : (forall a, ssafe (f a)) -> eats 2 p -> seats 2 (sbind (slift p) f).
Proof.
  intros Hf Hp. change 2 with (2 + 0). apply seats_bind; [apply seats_lift, Hp|intros a; apply seats_0, Hf].
Qed.
Lemma seats_bind_r {T A B} k (p : sparser T A) (f : A -> sparser T B) :
  ssafe p -> (forall a, seats k (f a)) -> seats k (sbind p f).
Proof. intros Hp Hf. change k with (0 + k). apply seats_bind; [apply seats_0, Hp|exact Hf]. Qed.
Lemma seats_trec : seats 2 (p_trec iana vendor).
Proof.
  unfold p_trec. apply seats_bind_r; [ssafe1|]. intros id. destruct (id <? 256); [apply seats_fail|].
  apply seats_2; [intros; ssafe1|apply eats_map_err, eats_be].
Qed.
Lemma ssafe_otrec : ssafe (p_otrec iana vendor).
Proof. unfold p_otrec. ssafe1. Qed.
Lemma seats_otrec : seats 2 (p_otrec iana vendor).
Proof.
  unfold p_otrec. apply seats_bind_r; [ssafe1|]. intros id. destruct (id <? 256); [apply seats_fail|].
  apply seats_2; [intros; ssafe1|apply eats_map_err, eats_be].
Qed.
Lemma safe_drec t : safe (p_drec iana vendor millis_ok t).
Proof. unfold p_drec. psafe; apply safe_mapm; intros; apply safe_field. Qed.
Lemma eats_drec t : eats (min_record t) (p_drec iana vendor millis_ok t).
Proof.
  unfold p_drec, min_record. apply eats_bind.
  - apply (eats_mapm (p_fspec_field iana vendor millis_ok) min_spec). intros; apply eats_field.
  - intros a. apply eats_bind_l; [|intros; apply safe_ret].
    apply (eats_mapm (p_fspec_field iana vendor millis_ok) min_spec). intros; apply eats_field.
Qed.
Lemma ssafe_iset : ssafe (p_iset iana vendor millis_ok).
Proof.
  unfold p_iset. ssafe1.
  - apply ssafe_while; [apply ssafe_trec|]. apply seats_while_cond.
    eapply seats_weaken; [apply seats_trec|lia].
  - apply ssafe_while; [apply ssafe_otrec|]. apply seats_while_cond.
    eapply seats_weaken; [apply seats_otrec|lia].
  - match goal with |- ssafe (match ?x with _ => _ end) => destruct x as [t|] end; [|apply ssafe_fail].
    cbv zeta. ssafe1. apply ssafe_while; [apply ssafe_lift, safe_drec|].
    intros m r x Hc Hx. pose proof (seats_lift (T:=tmap) _ _ (eats_drec t) m r x Hx) as H.
    unfold blen in H. lia.
Qed.
Lemma seats_iset : seats 2 (p_iset iana vendor millis_ok).
Proof.
  pose proof ssafe_iset as HS. unfold p_iset in *. apply seats_bind_r; [ssafe1|]. intros id.
  destruct (negb (id =? 2) && negb (id =? 3) && (id <? 256)); [apply seats_fail|].
  change 2 with (2 + 0) at 1. apply seats_bind; [apply seats_lift, eats_map_err, eats_be|]. intros a.
  apply seats_0. ssafe1.
  - apply ssafe_while; [apply ssafe_trec|]. apply seats_while_cond.
    eapply seats_weaken; [apply seats_trec|lia].
  - apply ssafe_while; [apply ssafe_otrec|]. apply seats_while_cond.
    eapply seats_weaken; [apply seats_otrec|lia].
  - match goal with |- ssafe (match ?x with _ => _ end) => destruct x as [t|] end; [|apply ssafe_fail].
    cbv zeta. ssafe1. apply ssafe_while; [apply ssafe_lift, safe_drec|].
    intros m r x Hc Hx. pose proof (seats_lift (T:=tmap) _ _ (eats_drec t) m r x Hx) as H.
    unfold blen in H. lia.
Qed.
Lemma ssafe_ipkt : ssafe (p_ipkt iana vendor millis_ok).
Proof.
  unfold p_ipkt. ssafe1. apply ssafe_while; [apply ssafe_iset|]. apply seats_while_cond.
  eapply seats_weaken; [apply seats_iset|lia].
Qed.

(* NetFlow *)
Lemma safe_nspec : safe p_nspec.
Proof. unfold p_nspec. psafe. Qed.
Lemma eats_nspec : eats 2 p_nspec.
Proof. unfold p_nspec. apply eats_bind_l; [apply eats_map_err, eats_be|intros; psafe]. Qed.
Lemma safe_nscope s : safe (p_nscope s).
Proof.
  unfold p_nscope, p_reduced32. destruct (ns_ie s); psafe; apply safe_unsigned64.
Qed.
Lemma eats_reduced32 len : eats len (p_reduced32 len).
Proof.
  unfold p_reduced32. destruct (4 <? len); [apply eats_fail|].
  apply eats_bind_l; [apply eats_map_err, eats_unsigned64|intros; apply safe_ret].
Qed.
Lemma eats_nscope s : eats (ns_len s) (p_nscope s).
Proof.
  unfold p_nscope. destruct (ns_ie s);
    (apply eats_bind_l; [first [apply eats_reduced32|apply eats_map_err, eats_bytes]|intros; apply safe_ret]).
Qed.
Lemma ssafe_ntrec : ssafe (p_ntrec iana vendor).
Proof. unfold p_ntrec. ssafe1. Qed.
Lemma seats_ntrec : seats 2 (p_ntrec iana vendor).
Proof.
  unfold p_ntrec. apply seats_bind_r; [ssafe1|]. intros id. destruct (id <? 256); [apply seats_fail|].
  apply seats_2; [intros; ssafe1|apply eats_map_err, eats_be].
Qed.
Lemma safe_many_fspec : safe (many_all (p_fspec iana vendor)).
Proof.
  apply safe_many_all; [apply safe_fspec|apply strict_eats]. eapply eats_weaken; [apply eats_fspec|lia].
Qed.
Lemma safe_many_nspec : safe (many_all p_nspec).
Proof.
  apply safe_many_all; [apply safe_nspec|apply strict_eats]. eapply eats_weaken; [apply eats_nspec|lia].
Qed.
Ltac ssafe2 := repeat first [ progress ssafe1
  | apply ssafe_lift; apply safe_on_sub; first [apply safe_many_nspec|apply safe_many_fspec] ].
Lemma ssafe_notrec : ssafe (p_notrec iana vendor).
Proof. unfold p_notrec. ssafe2. Qed.
Lemma seats_notrec : seats 2 (p_notrec iana vendor).
Proof.
  unfold p_notrec. apply seats_bind_r; [ssafe1|]. intros id. destruct (id <? 256); [apply seats_fail|].
  apply seats_2; [intros; ssafe2|apply eats_map_err, eats_be].
Qed.
Lemma safe_ndrec t : safe (p_ndrec iana vendor millis_ok t).
Proof.
  unfold p_ndrec. psafe; apply safe_mapm; intros; [apply safe_nscope|apply safe_field].
Qed.
(* a record of non-zero declared length consumes something *)
Lemma nsum_pos_le (l : list fspec) : nsum (map fs_len l) <> 0 -> 0 < nsum (map min_spec l).
Proof.
  unfold min_spec. induction l as [|s l IH]; cbn [map nsum fold_right]; [lia|].
  fold (nsum (map fs_len l)) (nsum (map (fun s => if fs_len s =? 65535 then 1 else fs_len s) l)).
  intros H. destruct (N.eqb_spec (fs_len s) 65535); [lia|].
  destruct (N.eq_dec (fs_len s) 0) as [E|E]; [rewrite E in *|lia].
  assert (nsum (map fs_len l) <> 0) by lia. specialize (IH H0). lia.
Qed.
Lemma eats_ndrec t : n_record_len t <> 0 -> eats 1 (p_ndrec iana vendor millis_ok t).
Proof.
  intros H. unfold p_ndrec, n_record_len in *.
  eapply eats_weaken.
  - apply eats_bind.
    + apply (eats_mapm p_nscope ns_len). apply eats_nscope.
    + intros a. apply eats_bind_l; [|intros; apply safe_ret].
      apply (eats_mapm (p_fspec_field iana vendor millis_ok) min_spec). intros; apply eats_field.
  - assert (nsum (map ns_len (nt_scope t)) <> 0 \/ nsum (map fs_len (nt_fields t)) <> 0) as [E|E] by lia; [lia|].
    apply nsum_pos_le in E. lia.
Qed.
Lemma ssafe_nset : ssafe (p_nset iana vendor millis_ok).
Proof.
  unfold p_nset. ssafe1.
  - apply ssafe_while; [apply ssafe_ntrec|]. apply seats_while_cond.
    eapply seats_weaken; [apply seats_ntrec|lia].
  - apply ssafe_while; [apply ssafe_notrec|]. apply seats_while_cond.
    eapply seats_weaken; [apply seats_notrec|lia].
  - match goal with |- ssafe (match ?x with _ => _ end) => destruct x as [t|] end; [|apply ssafe_fail].
    cbv zeta. destruct (n_record_len t =? 0) eqn:Ez; ssafe1.
    apply ssafe_while.
    + ssafe1. apply ssafe_lift, safe_ndrec.
    + apply seats_while_cond. change 1 with (1 + 0). apply seats_bind.
      * apply seats_lift, eats_ndrec. lia.
      * intros b. apply seats_0. ssafe1.
Qed.
Lemma seats_nset : seats 4 (p_nset iana vendor millis_ok).
Proof.
  pose proof ssafe_nset as HS. unfold p_nset in *. apply seats_bind_r; [ssafe1|]. intros id.
  destruct (negb (id =? 0) && negb (id =? 1) && (id <? 256)); [apply seats_fail|].
  change 4 with (2 + (2 + 0)) at 1. apply seats_bind; [apply seats_lift, eats_map_err, eats_be|]. intros a.
  apply seats_bind_r; [ssafe1|]. intros len. destruct (len <? 4); [apply seats_fail|].
  apply seats_bind; [apply seats_lift, eats_map_err, eats_be|]. intros b.
  apply seats_0. ssafe1.
  - apply ssafe_while; [apply ssafe_ntrec|]. apply seats_while_cond.
    eapply seats_weaken; [apply seats_ntrec|lia].
  - apply ssafe_while; [apply ssafe_notrec|]. apply seats_while_cond.
    eapply seats_weaken; [apply seats_notrec|lia].
  - match goal with |- ssafe (match ?x with _ => _ end) => destruct x as [t|] end; [|apply ssafe_fail].
    cbv zeta. destruct (n_record_len t =? 0) eqn:Ez; ssafe1.
    apply ssafe_while.
    + ssafe1. apply ssafe_lift, safe_ndrec.
    + apply seats_while_cond. change 1 with (1 + 0). apply seats_bind.
      * apply seats_lift, eats_ndrec. lia.
      * intros c. apply seats_0. ssafe1.
Qed.
Lemma safe_nsets : forall fuel count i m r, (length (rbuf r) < fuel)%nat ->
  adv r (snd (fst (p_nsets iana vendor millis_ok fuel count i m r)))
  /\ no_crash (snd (p_nsets iana vendor millis_ok fuel count i m r)).
Proof.
  induction fuel as [|fuel IH]; intros count i m r Hf; [lia|]. cbn [p_nsets].
  destruct ((0 <? i) && (3 <? remaining r)); [|split; [apply adv_refl|exact I]].
  unfold sbind. destruct (ssafe_nset m r) as [Ha Hc]. pose proof (seats_nset m r) as He.
  destruct (p_nset iana vendor millis_ok m r) as [[m' r'] [s|e| |]]; cbn [fst snd] in *; try contradiction.
  2:{ split; [exact Ha|exact I]. }
  specialize (He s eq_refl). destruct (i <? nset_takes s); cbn [sfail fst snd].
  { split; [exact Ha|exact I]. }
  assert (Hl : (length (rbuf r') < fuel)%nat) by (unfold blen in He; lia).
  specialize (IH count (i - nset_takes s) m' r' Hl).
  destruct (p_nsets iana vendor millis_ok fuel count (i - nset_takes s) m' r') as [[m'' r''] [xs|e| |]];
    cbn [fst snd sret] in *; (split; [eapply adv_trans; [exact Ha|tauto]|tauto]).
Qed.
Lemma ssafe_npkt : ssafe (p_npkt iana vendor millis_ok).
Proof.
  unfold p_npkt. ssafe1. intros m r. apply safe_nsets. lia.
Qed.
End P.
