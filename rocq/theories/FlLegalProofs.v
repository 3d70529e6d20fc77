From Verif Require Import Base BaseLemmas AfModel MapLib FlModel FlSpec FlSafeProofs FlDecodeProofs FlTemplateProofs FlRoundProofs.

(* [keeps P p Q]: p keeps P of the templates map, and its result satisfies Q *)
Definition keeps {T A} (P : T -> Prop) (p : sparser T A) (Q : A -> Prop) : Prop :=
  forall t r, P t -> P (fst (fst (p t r))) /\ forall a, snd (p t r) = Ok a -> Q a.
Definition yields {A} (p : parser ferr A) (Q : A -> Prop) : Prop := forall r a, snd (p r) = Ok a -> Q a.
Section Keeps.
Context {T : Type} (P : T -> Prop).
Lemma keeps_bind {A B} (p : sparser T A) (f : A -> sparser T B) Q R :
  keeps P p Q -> (forall a, Q a -> keeps P (f a) R) -> keeps P (sbind p f) R.
Proof.
  intros Hp Hf t r Ht. unfold sbind. destruct (Hp t r Ht) as [H1 H2]. destruct (p t r) as [[t1 r1] [a|e| |]]; cbn [fst snd] in *.
  - apply Hf; [now apply H2|assumption].
  - split; [assumption|discriminate].
  - split; [assumption|discriminate].
  - split; [assumption|discriminate].
Qed.
Lemma keeps_ret {A} (a : A) (Q : A -> Prop) : Q a -> keeps P (sret a) Q.
Proof. intros H t r Ht. cbn. split; [assumption|]. intros b E. now injection E as <-. Qed.
Lemma keeps_fail {A} e (Q : A -> Prop) : keeps P (sfail e) Q.
Proof. intros t r Ht. cbn. split; [assumption|discriminate]. Qed.
Lemma keeps_lift {A} (p : parser ferr A) Q : yields p Q -> keeps P (slift p) Q.
Proof. intros H t r Ht. unfold slift. specialize (H r). destruct (p r) as [r' x]. cbn [fst snd] in *. auto. Qed.
Lemma keeps_any {A} (p : parser ferr A) : keeps P (slift p) (fun _ => True).
Proof. apply keeps_lift. intros r a _. exact I. Qed.
Lemma keeps_mod f (H : forall t, P t -> P (f t)) : keeps P (smod f) (fun _ => True).
Proof. intros t r Ht. cbn. auto. Qed.
Lemma keeps_sub {A} sub (p : sparser T A) Q : keeps P p Q -> keeps P (son_sub sub p) Q.
Proof. intros H t r Ht. unfold son_sub. specialize (H t sub Ht). destruct (p t sub) as [[t' r'] x]. exact H. Qed.
Lemma keeps_get_bind {B} (f : T -> sparser T B) R : (forall t, P t -> keeps P (f t) R) -> keeps P (sbind sget f) R.
Proof. intros H t r Ht. exact (H t Ht t r Ht). Qed.
Lemma keeps_if {A} (b : bool) (p q : sparser T A) Q :
  (b = true -> keeps P p Q) -> (b = false -> keeps P q Q) -> keeps P (if b then p else q) Q.
Proof. destruct b; auto. Qed.
Lemma keeps_while {A} cond (p : sparser T A) Q fuel : keeps P p Q -> keeps P (swhile fuel cond p) (Forall Q).
Proof.
  intros H. induction fuel as [|f IH]; intros t r Ht; cbn [swhile].
  - destruct (cond r); cbn; split; try assumption; try discriminate. intros a E; injection E as <-. constructor.
  - destruct (cond r); [|cbn; split; [assumption|intros a E; injection E as <-; constructor]].
    revert t r Ht. eapply keeps_bind; [exact H|]. intros a Ha. eapply keeps_bind; [exact IH|]. intros l Hl.
    apply keeps_ret. now constructor.
Qed.
Lemma keeps_while_all {A} cond (p : sparser T A) Q : keeps P p Q -> keeps P (swhile_all cond p) (Forall Q).
Proof. intros H t r Ht. unfold swhile_all. now apply keeps_while. Qed.
End Keeps.
Lemma yields_times {A} n (p : parser ferr A) Q : yields p Q -> yields (ptimes n p) (Forall Q).
Proof.
  intros H. induction n as [|n IH]; intros r a; cbn [ptimes].
  - cbn. intros E; injection E as <-. constructor.
  - unfold bind. specialize (H r). destruct (p r) as [r1 [x|e| |]]; cbn [snd] in *; try discriminate.
    specialize (IH r1). destruct (ptimes n p r1) as [r2 [xs|e| |]]; cbn [snd ret] in *; try discriminate.
    intros E; injection E as <-. constructor; auto.
Qed.
Lemma yields_many {A} fuel (p : parser ferr A) Q : yields p Q -> yields (many fuel p) (Forall Q).
Proof.
  intros H. induction fuel as [|n IH]; intros r a; cbn [many].
  - destruct (ris_empty r); cbn; [intros E; injection E as <-; constructor|discriminate].
  - destruct (ris_empty r); [cbn; intros E; injection E as <-; constructor|].
    unfold bind. specialize (H r). destruct (p r) as [r1 [x|e| |]]; cbn [snd] in *; try discriminate.
    specialize (IH r1). destruct (many n p r1) as [r2 [xs|e| |]]; cbn [snd ret] in *; try discriminate.
    intros E; injection E as <-. constructor; auto.
Qed.
Section Legal.
Context (iana : N -> option dtype) (vendor : N -> option (N -> option dtype)) (millis_ok : Z -> bool).
Notation LT := (legal_template iana vendor).
Notation LN := (legal_ntemplate iana vendor).
Lemma fspec_legal : yields (p_fspec iana vendor) (legal_spec iana vendor).
Proof.
  intros r s. unfold p_fspec. unfold bind at 1. destruct (pmap_err FE_Parse read_u16 r) as [r1 [code|e| |]]; cbn [snd]; try discriminate.
  unfold bind at 1. destruct (pmap_err FE_Parse read_u16 r1) as [r2 [len|e| |]]; cbn [snd]; try discriminate.
  unfold bind at 1. match goal with |- context [(if ?c then ?x else ?y) r2] => destruct ((if c then x else y) r2) as [r3 [[pen id]|e| |]] end;
    cbn [fst snd]; try discriminate.
  destruct (classify iana vendor pen id) as [c|] eqn:Ec; [|discriminate].
  destruct (in_range (class_range c) len) eqn:Ei; [|discriminate]. cbn. intros E; injection E as <-.
  apply legal_classify. exists c. auto.
Qed.
Lemma nspec_legal : yields p_nspec legal_scope.
Proof.
  intros r s. unfold p_nspec. unfold bind at 1. destruct (pmap_err FE_Parse read_u16 r) as [r1 [code|e| |]]; cbn [snd]; try discriminate.
  unfold bind at 1. destruct (pmap_err FE_Parse read_u16 r1) as [r2 [len|e| |]]; cbn [snd]; try discriminate.
  unfold bind at 1. match goal with |- context [(if ?c then ?x else ?y) r2] => destruct ((if c then x else y) r2) as [r3 [pen|e| |]] end;
    cbn [fst snd]; try discriminate.
  destruct (in_range (scope_range (scope_ie_of pen code)) len) eqn:Ei; [|discriminate]. cbn. intros E; injection E as <-.
  unfold legal_scope; cbn [ns_ie ns_len]. destruct (scope_ie_of pen code); cbn [scope_range in_range] in Ei; try exact I; lia.
Qed.

Definition all_legal (m : tmap) : Prop := forall i t, tget i m = Some t -> LT (i, (t_scope t, t_fields t)).
Definition all_nlegal (m : ntmap) : Prop := forall i t, nget i m = Some t -> LN (i, (nt_scope t, nt_fields t)).
Lemma legal_set i t m : LT (i, (t_scope t, t_fields t)) -> all_legal m -> all_legal (tset i t m).
Proof.
  intros Ht Hm j u. unfold tget, tset. rewrite (mget_mset N.eqb N.eqb_spec). destruct (N.eqb_spec j i) as [->|Hj].
  - intros E; injection E as <-. exact Ht.
  - apply Hm.
Qed.
Lemma nlegal_set i t m : LN (i, (nt_scope t, nt_fields t)) -> all_nlegal m -> all_nlegal (nset_ i t m).
Proof.
  intros Ht Hm j u. unfold nget, nset_. rewrite (mget_mset N.eqb N.eqb_spec). destruct (N.eqb_spec j i) as [->|Hj].
  - intros E; injection E as <-. exact Ht.
  - apply Hm.
Qed.
Lemma trec_legal : keeps all_legal (p_trec iana vendor) (fun r => LT (tr_id r, ([], tr_fields r))).
Proof.
  unfold p_trec. eapply keeps_bind; [apply keeps_any|]. intros id _.
  apply keeps_if; intros Hid; [apply keeps_fail|]. eapply keeps_bind; [apply keeps_any|]. intros _ _.
  eapply keeps_bind; [apply keeps_any|]. intros n _. eapply keeps_bind; [apply keeps_lift, yields_times, fspec_legal|]. intros fs Hfs.
  assert (Hl : LT (id, ([], fs))) by (split; [cbn; lia|split; [constructor|exact Hfs]]).
  eapply keeps_bind; [apply keeps_mod; intros t; now apply legal_set|]. intros _ _. now apply keeps_ret.
Qed.
Lemma otrec_legal : keeps all_legal (p_otrec iana vendor) (fun r => LT (ot_id r, (ot_scope r, ot_fields r))).
Proof.
  unfold p_otrec. eapply keeps_bind; [apply keeps_any|]. intros id _.
  apply keeps_if; intros Hid; [apply keeps_fail|]. eapply keeps_bind; [apply keeps_any|]. intros _ _.
  eapply keeps_bind; [apply keeps_any|]. intros n _. eapply keeps_bind; [apply keeps_any|]. intros sc _.
  apply keeps_if; intros Hsc; [apply keeps_fail|]. eapply keeps_bind; [apply keeps_any|]. intros _ _.
  eapply keeps_bind; [apply keeps_lift, yields_times, fspec_legal|]. intros ss Hss.
  eapply keeps_bind; [apply keeps_lift, yields_times, fspec_legal|]. intros fs Hfs.
  assert (Hl : LT (id, (ss, fs))) by (split; [cbn; lia|split; [exact Hss|exact Hfs]]).
  eapply keeps_bind; [apply keeps_mod; intros t; now apply legal_set|]. intros _ _. now apply keeps_ret.
Qed.
Lemma tincr_legal id m : all_legal m -> all_legal (tincr id m).
Proof.
  intros H. unfold tincr. destruct (tget id m) as [t|] eqn:E; [|exact H]. apply legal_set; [|exact H]. exact (H id t E).
Qed.
Lemma nincr_legal id m : all_nlegal m -> all_nlegal (nincr id m).
Proof.
  intros H. unfold nincr. destruct (nget id m) as [t|] eqn:E; [|exact H]. apply nlegal_set; [|exact H]. exact (H id t E).
Qed.
Lemma forall_map {A B} (f : A -> B) (P : B -> Prop) l : Forall (fun x => P (f x)) l -> Forall P (map f l).
Proof. induction 1; cbn; constructor; auto. Qed.
Lemma iset_legal : keeps all_legal (p_iset iana vendor millis_ok) (fun s => Forall LT (templates_of s)).
Proof.
  unfold p_iset. eapply keeps_bind; [apply keeps_any|]. intros id _.
  apply keeps_if; intros Hid; [apply keeps_fail|]. eapply keeps_bind; [apply keeps_any|]. intros _ _.
  eapply keeps_bind; [apply keeps_any|]. intros n _.
  apply keeps_if; intros Hn; [apply keeps_fail|]. eapply keeps_bind; [apply keeps_any|]. intros _ _.
  eapply keeps_bind; [apply keeps_any|]. intros sub _.
  apply keeps_if; intros H2.
  { eapply keeps_bind; [apply keeps_sub, keeps_while_all, trec_legal|]. intros l Hl. apply keeps_ret. cbn. now apply forall_map. }
  apply keeps_if; intros H3.
  { eapply keeps_bind; [apply keeps_sub|].
    - eapply keeps_bind; [apply keeps_while_all, otrec_legal|]. intros l Hl. eapply keeps_bind; [apply keeps_any|]. intros _ _.
      apply keeps_ret. exact Hl.
    - intros l Hl. apply keeps_ret. cbn. now apply forall_map. }
  apply keeps_get_bind. intros m Hm. destruct (tget id m) as [t|]; [|apply keeps_fail].
  cbn zeta. eapply keeps_bind; [apply keeps_sub, keeps_while_all, keeps_any|]. intros l _.
  eapply keeps_bind; [apply keeps_mod; intros; now apply tincr_legal|]. intros _ _. apply keeps_ret. constructor.
Qed.
Lemma forall_flat_map {A B} (f : A -> list B) (P : B -> Prop) l : Forall (fun x => Forall P (f x)) l -> Forall P (flat_map f l).
Proof. induction 1; cbn; [constructor|]. apply Forall_app. auto. Qed.
Lemma ipkt_legal : keeps all_legal (p_ipkt iana vendor millis_ok) (fun p => Forall LT (flat_map templates_of (ip_sets p))).
Proof.
  unfold p_ipkt. eapply keeps_bind; [apply keeps_any|]. intros v _.
  apply keeps_if; intros Hv; [apply keeps_fail|]. eapply keeps_bind; [apply keeps_any|]. intros _ _.
  eapply keeps_bind; [apply keeps_any|]. intros len _.
  apply keeps_if; intros Hn; [apply keeps_fail|]. eapply keeps_bind; [apply keeps_any|]. intros _ _.
  eapply keeps_bind; [apply keeps_any|]. intros sub _. apply keeps_sub.
  do 3 (eapply keeps_bind; [apply keeps_any|]; intros ? _).
  eapply keeps_bind; [apply keeps_while_all, iset_legal|]. intros l Hl. apply keeps_ret. cbn [ip_sets]. now apply forall_flat_map.
Qed.

Lemma ntrec_legal : keeps all_nlegal (p_ntrec iana vendor) (fun r => LN (tr_id r, ([], tr_fields r))).
Proof.
  unfold p_ntrec. eapply keeps_bind; [apply keeps_any|]. intros id _.
  apply keeps_if; intros Hid; [apply keeps_fail|]. eapply keeps_bind; [apply keeps_any|]. intros _ _.
  eapply keeps_bind; [apply keeps_any|]. intros n _. eapply keeps_bind; [apply keeps_lift, yields_times, fspec_legal|]. intros fs Hfs.
  assert (Hl : LN (id, ([], fs))) by (split; [cbn; lia|split; [constructor|exact Hfs]]).
  eapply keeps_bind; [apply keeps_mod; intros t; now apply nlegal_set|]. intros _ _. now apply keeps_ret.
Qed.
Lemma yields_sub {A} sub (p : parser ferr A) Q : yields p Q -> yields (on_sub sub p) Q.
Proof. intros H r a. unfold on_sub. specialize (H sub). destruct (p sub) as [r1 x]. cbn [snd] in *. apply H. Qed.
Lemma yields_many_all {A} (p : parser ferr A) Q : yields p Q -> yields (many_all p) (Forall Q).
Proof. intros H r a. unfold many_all. now apply yields_many. Qed.
Lemma notrec_legal : keeps all_nlegal (p_notrec iana vendor) (fun r => LN (no_id r, (no_scope r, no_fields r))).
Proof.
  unfold p_notrec. eapply keeps_bind; [apply keeps_any|]. intros id _.
  apply keeps_if; intros Hid; [apply keeps_fail|]. do 5 (eapply keeps_bind; [apply keeps_any|]; intros ? _).
  eapply keeps_bind; [apply keeps_lift, yields_sub, yields_many_all, nspec_legal|]. intros ss Hss.
  eapply keeps_bind; [apply keeps_lift, yields_sub, yields_many_all, fspec_legal|]. intros fs Hfs.
  assert (Hl : LN (id, (ss, fs))) by (split; [cbn; lia|split; [exact Hss|exact Hfs]]).
  eapply keeps_bind; [apply keeps_mod; intros t; now apply nlegal_set|]. intros _ _. now apply keeps_ret.
Qed.
Lemma nset_legal : keeps all_nlegal (p_nset iana vendor millis_ok) (fun s => Forall LN (ntemplates_of s)).
Proof.
  unfold p_nset. eapply keeps_bind; [apply keeps_any|]. intros id _.
  apply keeps_if; intros Hid; [apply keeps_fail|]. eapply keeps_bind; [apply keeps_any|]. intros _ _.
  eapply keeps_bind; [apply keeps_any|]. intros n _.
  apply keeps_if; intros Hn; [apply keeps_fail|]. eapply keeps_bind; [apply keeps_any|]. intros _ _.
  eapply keeps_bind; [apply keeps_any|]. intros sub _.
  apply keeps_if; intros H2.
  { eapply keeps_bind; [apply keeps_sub, keeps_while_all, ntrec_legal|]. intros l Hl. apply keeps_ret. cbn. now apply forall_map. }
  apply keeps_if; intros H3.
  { eapply keeps_bind; [apply keeps_sub|].
    - eapply keeps_bind; [apply keeps_while_all, notrec_legal|]. intros l Hl. eapply keeps_bind; [apply keeps_any|]. intros _ _.
      apply keeps_ret. exact Hl.
    - intros l Hl. apply keeps_ret. cbn. now apply forall_map. }
  apply keeps_get_bind. intros m Hm. destruct (nget id m) as [t|]; [|apply keeps_fail].
  cbn zeta. eapply keeps_bind.
  - apply keeps_sub. eapply (keeps_bind _ _ _ (fun _ => True) (fun _ => True)).
    + apply keeps_if; intros _; [now apply keeps_ret|].
      assert (Hw : keeps all_nlegal (sdo x <- slift (p_ndrec iana vendor millis_ok t);; sdo_ smod (nincr id);; sret x)%parse (fun _ => True)).
      { eapply keeps_bind; [apply keeps_any|]. intros x _. eapply keeps_bind; [apply keeps_mod; intros; now apply nincr_legal|].
        intros _ _. now apply keeps_ret. }
      intros t0 r0 Ht0. destruct (keeps_while_all _ (fun r => n_record_len t <=? remaining r) _ _ Hw t0 r0 Ht0) as [Ha Hb]. split; auto.
    + intros l _. eapply keeps_bind; [apply keeps_any|]. intros _ _. now apply keeps_ret.
  - intros l _. apply keeps_ret. constructor.
Qed.
Lemma nsets_legal fuel count : forall i, keeps all_nlegal (p_nsets iana vendor millis_ok fuel count i) (Forall (fun s => Forall LN (ntemplates_of s))).
Proof.
  induction fuel as [|f IH]; intros i t r Ht; cbn [p_nsets].
  - destruct ((0 <? i) && (3 <? remaining r)); cbn; split; try assumption; try discriminate. intros a E; injection E as <-. constructor.
  - destruct ((0 <? i) && (3 <? remaining r)); [|cbn; split; [assumption|intros a E; injection E as <-; constructor]].
    revert t r Ht. eapply keeps_bind; [exact nset_legal|]. intros a Ha. apply keeps_if; intros Hi; [apply keeps_fail|].
    eapply keeps_bind; [apply IH|]. intros l Hl. apply keeps_ret. now constructor.
Qed.
Lemma npkt_legal : keeps all_nlegal (p_npkt iana vendor millis_ok) (fun p => Forall LN (flat_map ntemplates_of (np_sets p))).
Proof.
  unfold p_npkt. eapply keeps_bind; [apply keeps_any|]. intros v _.
  apply keeps_if; intros Hv; [apply keeps_fail|]. do 6 (eapply keeps_bind; [apply keeps_any|]; intros ? _).
  eapply keeps_bind; [intros t r Ht; now apply nsets_legal|]. intros l Hl. apply keeps_ret. cbn [np_sets]. now apply forall_flat_map.
Qed.

Lemma decode_legal c buf : all_legal (c_ipfix c) -> all_nlegal (c_netflow c) ->
  all_legal (c_ipfix (fst (fst (decode iana vendor millis_ok c buf)))) /\
  all_nlegal (c_netflow (fst (fst (decode iana vendor millis_ok c buf)))) /\
  legal_packet iana vendor (snd (decode iana vendor millis_ok c buf)).
Proof.
  intros Hi Hn. unfold decode. destruct (blen buf <? 16); [cbn; auto|]. cbn zeta.
  destruct (blen buf <? be_val (take 2 (drop 2 buf))); [cbn; auto|].
  destruct (be_val (take 2 buf) =? 10).
  - unfold decode_ipfix. destruct (ipkt_legal (c_ipfix c) (rnew buf) Hi) as [H1 H2].
    destruct (p_ipkt iana vendor millis_ok (c_ipfix c) (rnew buf)) as [[m r] [p|e| |]]; cbn [fst snd] in *.
    + cbn [c_ipfix c_netflow legal_packet]. auto.
    + cbn zeta. match goal with |- context [if ?b then (_, _, DPanic) else _] => destruct b end; cbn [fst snd c_ipfix c_netflow legal_packet]; auto.
    + cbn; auto.
    + cbn; auto.
  - destruct (be_val (take 2 buf) =? 9); [|cbn; auto].
    unfold decode_netflow. destruct (npkt_legal (c_netflow c) (rnew buf) Hn) as [H1 H2].
    destruct (p_npkt iana vendor millis_ok (c_netflow c) (rnew buf)) as [[m r] [p|e| |]]; cbn [fst snd c_ipfix c_netflow legal_packet] in *; auto.
Qed.
Lemma receive_legal : forall ds c outs c', all_legal (c_ipfix c) -> all_nlegal (c_netflow c) ->
  receive iana vendor millis_ok c ds = (outs, c') ->
  Forall (legal_packet iana vendor) outs /\ all_legal (c_ipfix c') /\ all_nlegal (c_netflow c').
Proof.
  induction ds as [|d ds IH]; intros c outs c' Hi Hn H; cbn [receive] in H.
  - inversion H; subst. auto.
  - destruct (decode_legal c d Hi Hn) as (H1 & H2 & H3).
    destruct (decode iana vendor millis_ok c d) as [[c1 rest] o]. cbn [fst snd] in *.
    destruct (receive iana vendor millis_ok c1 ds) as [os c2] eqn:Er. inversion H; subst.
    destruct (IH c1 os c' H1 H2 Er) as (A & B & C). auto.
Qed.
End Legal.
