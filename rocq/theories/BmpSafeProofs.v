(* Octets that carry no oversized label count never make the BMP decoder
   panic. *)
From Verif Require Import Base BaseLemmas MapLib AfModel FramingModel FramingProofs BgpCapModel BgpCapSpec BgpCapProofs BgpFrameModel
  BgpFrameProofs BgpNlriModel BgpNlriSpec BgpNlriProofs BgpAttrModel BgpAttrSpec BgpMsgModel BgpMsgSpec BgpMsgProofs
  BmpModel BmpSpec BmpFrameProofs BmpCtxProofs.
From Coq Require Import Lia ZifyBool ZifyN ZifyNat.

(* ---- parsers working inside a fixed piece of input ---- *)
Definition infix (b F : list N) : Prop := exists pre post, F = pre ++ b ++ post.
Lemma infix_adv F r r' : infix (rbuf r) F -> adv r r' -> infix (rbuf r') F.
Proof.
  intros (a & z & ->) (pre & -> & _). exists (a ++ pre), z. rewrite <- !app_assoc. reflexivity.
Qed.
Section inside.
Variable F : list N.
Definition gsafe {C E A} (S : C -> Prop) (p : cparser C E A) : Prop :=
  forall c r, S c -> infix (rbuf r) F ->
    adv r (snd (fst (p c r))) /\ S (fst (fst (p c r))) /\ no_crash (snd (p c r)).
Lemma gs_ret {C E A} (S : C -> Prop) (x : A) : gsafe S (@cret C E A x).
Proof. intros c r H Hi. split; [apply adv_refl|split; [exact H|exact Logic.I]]. Qed.
Lemma gs_fail {C E A} (S : C -> Prop) (e : E) : gsafe S (@cfail C E A e).
Proof. intros c r H Hi. split; [apply adv_refl|split; [exact H|exact Logic.I]]. Qed.
Lemma gs_lift {C E A} (S : C -> Prop) (p : parser E A) : safe p -> gsafe S (clift p).
Proof.
  intros Hp c r H Hi. unfold clift. destruct (Hp r) as [H1 H2]. destruct (p r) as [r' x]. cbn [fst snd] in *. auto.
Qed.
Lemma gs_bind {C E A B} (S : C -> Prop) (p : cparser C E A) (f : A -> cparser C E B) :
  gsafe S p -> (forall x, gsafe S (f x)) -> gsafe S (cbind p f).
Proof.
  intros Hp Hf c r H Hi. unfold cbind. destruct (Hp c r H Hi) as (H1 & H2 & H3).
  destruct (p c r) as [[c1 r1] [x|e| |]]; cbn [fst snd] in *; auto.
  destruct (Hf x c1 r1 H2) as (H4 & H5 & H6); [eapply infix_adv; eauto|].
  split; [eapply adv_trans; eauto|auto].
Qed.
Lemma slice_inside r r' n sub : take_slice n r = (r', Ok sub) -> rbuf r = rbuf sub ++ rbuf r' /\ blen (rbuf sub) = n.
Proof.
  unfold take_slice. destruct (read_bytes n r) as [r1 [b|e| |]] eqn:Hb; intros H; try discriminate.
  injection H as <- <-. cbn [rbuf]. unfold read_bytes in Hb. destruct (blen (rbuf r) <? n) eqn:Hn; [discriminate|].
  injection Hb as <- <-. cbn [rbuf]. split; [symmetry; apply take_drop|]. rewrite blen_take by lia. reflexivity.
Qed.
Lemma gs_in_sub {C E A} (S : C -> Prop) (g : perr -> E) n (p : cparser C E A) : gsafe S p -> gsafe S (in_sub g n p).
Proof.
  intros Hp c r H Hi. unfold in_sub, cbind, clift, pmap_err.
  pose proof (safe_take_slice n r) as [Ha Hc].
  destruct (take_slice n r) as [r1 [sub|e| |]] eqn:Ht; cbn [fst snd map_err] in *; try contradiction.
  - destruct (slice_inside _ _ _ _ Ht) as [Hs _]. unfold con_sub.
    destruct (Hp c sub H) as (H1 & H2 & H3).
    { destruct Hi as (a & z & ->). rewrite Hs. exists a, (rbuf r1 ++ z). now rewrite <- !app_assoc. }
    destruct (p c sub) as [[c1 r2] x]. cbn [fst snd] in *. auto.
  - auto.
Qed.
Definition geats {C E A} (p : cparser C E A) : Prop :=
  forall c r x, snd (p c r) = Ok x -> (length (rbuf (snd (fst (p c r)))) < length (rbuf r))%nat.
Lemma gs_many {C E A} (S : C -> Prop) (p : cparser C E (option A)) : gsafe S p -> geats p ->
  forall fuel c r, S c -> infix (rbuf r) F -> (length (rbuf r) <= fuel)%nat ->
    adv r (snd (fst (cmany fuel p c r))) /\ S (fst (fst (cmany fuel p c r))) /\ no_crash (snd (cmany fuel p c r)).
Proof.
  intros Hp He. induction fuel as [|f IH]; intros c r H Hi Hl; cbn [cmany].
  - destruct (rbuf r) eqn:Hb; [|cbn [length] in Hl; lia]. unfold ris_empty. rewrite Hb. cbn [fst snd].
    split; [apply adv_refl|split; [exact H|exact Logic.I]].
  - destruct (ris_empty r) eqn:Hr; cbn [fst snd].
    { split; [apply adv_refl|split; [exact H|exact Logic.I]]. }
    unfold cbind at 1 3 5. destruct (Hp c r H Hi) as (H1 & H2 & H3). specialize (He c r).
    destruct (p c r) as [[c1 r1] [x|e| |]]; cbn [fst snd] in *; auto.
    specialize (He x eq_refl). unfold cbind.
    destruct (IH c1 r1 H2) as (H4 & H5 & H6); [eapply infix_adv; eauto|lia|].
    destruct (cmany f p c1 r1) as [[c2 r2] [y|e| |]]; cbn [fst snd cret] in *;
      (split; [eapply adv_trans; eauto|split; auto]).
Qed.
Lemma gs_many_all {C E A} (S : C -> Prop) (p : cparser C E (option A)) : gsafe S p -> geats p -> gsafe S (cmany_all p).
Proof. intros Hp He c r H Hi. unfold cmany_all. apply gs_many; auto. Qed.
Lemma ge_lift {C E A} (p : parser E A) : strict p -> @geats C E A (clift p).
Proof.
  intros Hp c r x. unfold clift. specialize (Hp r x). destruct (p r) as [r' y]. cbn [fst snd] in *. exact Hp.
Qed.

(* ---- one peer ---- *)
Definition small1 (x : bctx) : Prop := small_limits (x_labels x).
Lemma gs_csafe {E A} (p : cparser bctx E A) : csafe p -> gsafe small1 p.
Proof.
  intros H c r Hs _. destruct (H c r Hs) as (H1 & H2 & H3). split; [exact H1|]. split; [|exact H3].
  unfold small1. rewrite H2. exact Hs.
Qed.
Lemma cs_pdu : csafe bgp_pdu.
Proof. apply cs_map_err, cs_bgp. Qed.
Lemma safe_rest : safe rest_bytes.
Proof. unfold rest_bytes, brd. apply safe_bind; [apply safe_get_reader|intros; apply safe_map_err, safe_bytes]. Qed.
Local Opaque rest_bytes.
Lemma safe_header : safe parse_header.
Proof.
  unfold parse_header. apply safe_bind; [unfold parse_ptype, brd; psafe|intros].
  apply safe_bind; [apply safe_map_err, safe_rd|intros]. unfold brd. psafe.
Qed.
Lemma safe_info : safe parse_info.
Proof. unfold parse_info, brd. repeat (apply safe_bind; [psafe|intros] || apply safe_if; [psafe|]). psafe. apply safe_rest. Qed.
Lemma strict_brd {A} (p : parser perr A) : strict p -> strict (brd p).
Proof. apply strict_map_err. Qed.
Lemma strict_u16 : strict read_u16. Proof. apply strict_be. lia. Qed.
Lemma strict_info : strict parse_info.
Proof.
  unfold parse_info. apply strict_bind_l; [apply strict_brd, strict_u16|]. intros c. apply safe_if; [psafe|].
  unfold brd. psafe. apply safe_rest.
Qed.
Lemma safe_raw_tlv : safe parse_raw_tlv. Proof. unfold parse_raw_tlv, brd. psafe. Qed.
Lemma strict_raw_tlv : strict parse_raw_tlv.
Proof. unfold parse_raw_tlv. apply strict_bind_l; [apply strict_brd, strict_u16|]. intros. unfold brd. psafe. Qed.
Lemma safe_term : safe parse_term.
Proof. unfold parse_term, brd. psafe; apply safe_rest. Qed.
Lemma strict_term : strict parse_term.
Proof. unfold parse_term. apply strict_bind_l; [apply strict_brd, strict_u16|]. intros. unfold brd. psafe; apply safe_rest. Qed.
Lemma safe_stat : safe parse_stat.
Proof. unfold parse_stat, parse_family, brd. psafe; apply safe_rest. Qed.
Lemma strict_stat : strict parse_stat.
Proof. unfold parse_stat. apply strict_bind_l; [apply strict_brd, strict_u16|]. intros. unfold parse_family, brd. psafe; apply safe_rest. Qed.
Lemma safe_times {E A} (p : parser E A) : safe p -> strict p -> forall fuel n r, (length (rbuf r) < fuel)%nat ->
  adv r (fst (times fuel n p r)) /\ no_crash (snd (times fuel n p r)).
Proof.
  intros Hs Ht. induction fuel as [|f IH]; intros n r Hf; [lia|]. cbn [times].
  destruct (n =? 0); [split; [apply adv_refl|exact Logic.I]|]. unfold bind.
  destruct (Hs r) as [Ha Hc]. specialize (Ht r). destruct (p r) as [r' [a|e| |]]; cbn [fst snd] in *; try contradiction; auto.
  specialize (Ht a eq_refl). specialize (IH (n - 1) r' ltac:(lia)).
  destruct (times f (n - 1) p r') as [r2 [xs|e| |]]; cbn [fst snd] in *; destruct IH as [H1 H2];
    (split; [eapply adv_trans; eauto|exact H2 || exact Logic.I]).
Qed.
Lemma safe_stats : safe parse_stats.
Proof.
  unfold parse_stats. apply safe_bind; [apply safe_header|intros h]. apply safe_bind; [unfold brd; psafe|intros n].
  intros r. unfold bind at 1 3. unfold get_reader. unfold bind.
  destruct (safe_times parse_stat safe_stat strict_stat (S (length (rbuf r))) n r) as [H1 H2]; [lia|].
  destruct (times (S (length (rbuf r))) n parse_stat r) as [r' [xs|e| |]]; cbn [fst snd] in *; split; auto; apply H2.
Qed.
Lemma gs_lift' {C E A} (S : C -> Prop) (p : parser E A) : safe p -> gsafe S (clift p).
Proof. apply gs_lift. Qed.
Lemma gs_reason : gsafe small1 parse_reason.
Proof.
  unfold parse_reason. apply gs_bind; [apply gs_lift; unfold brd; psafe|intros code].
  repeat match goal with |- gsafe _ (if ?b then _ else _) => destruct b end; try apply gs_ret.
  - apply gs_bind; [apply gs_csafe, cs_pdu|intros; apply gs_ret].
  - apply gs_bind; [apply gs_lift; unfold brd; psafe|intros; apply gs_ret].
  - apply gs_bind; [apply gs_csafe, cs_pdu|intros; apply gs_ret].
  - apply gs_bind; [apply gs_lift, safe_info|intros; apply gs_ret].
  - destruct (xp_of 251 code); [|apply gs_fail]. apply gs_bind; [apply gs_lift, safe_rest|intros; apply gs_ret].
Qed.
Lemma gs_whole {A} n (p : cparser bctx bmp_err A) : gsafe small1 p -> gsafe small1 (in_whole n p).
Proof.
  intros H. unfold in_whole. apply gs_in_sub. apply gs_bind; [exact H|intros]. apply gs_bind; [apply gs_lift; psafe|intros].
  destruct (ris_empty _); [apply gs_ret|apply gs_fail].
Qed.
Lemma gs_mirrored : gsafe small1 parse_mirrored.
Proof.
  unfold parse_mirrored. apply gs_bind; [apply gs_lift; unfold brd; psafe|intros code].
  destruct (_ && _); [apply gs_fail|]. apply gs_bind; [apply gs_lift; unfold brd; psafe|intros len]. apply gs_whole.
  destruct (code =? 0); [apply gs_bind; [apply gs_csafe, cs_pdu|intros; apply gs_ret]|].
  destruct (code =? 1); [apply gs_bind; [apply gs_lift; unfold brd; psafe|intros]; destruct (mirror_info_ok _); [apply gs_ret|apply gs_fail]|].
  destruct (xp_of 65531 code); [|apply gs_fail]. apply gs_bind; [apply gs_lift; unfold brd; psafe|intros; apply gs_ret].
Qed.
(* parsers that start with a two-octet number *)
Lemma ge_head {C A} (f : N -> cparser C bmp_err A) :
  (forall n c r, (length (rbuf (snd (fst (f n c r)))) <= length (rbuf r))%nat) -> geats (cbind (clift (brd read_u16)) f).
Proof.
  intros Hf c r x. unfold cbind, clift. pose proof (strict_brd _ strict_u16 r) as Hs.
  destruct (brd read_u16 r) as [r1 [n|e| |]]; cbn [fst snd] in *; try discriminate.
  intros _. specialize (Hs n eq_refl). specialize (Hf n c r1). lia.
Qed.
End inside.

(* a parser never gives octets back *)
Definition backless {C E A} (p : cparser C E A) : Prop := forall c r, (length (rbuf (snd (fst (p c r)))) <= length (rbuf r))%nat.
Lemma bl_ret {C E A} (x : A) : backless (@cret C E A x). Proof. intros c r. reflexivity. Qed.
Lemma bl_fail {C E A} (e : E) : backless (@cfail C E A e). Proof. intros c r. reflexivity. Qed.
Lemma bl_lift {C E A} (p : parser E A) : safe p -> @backless C E A (clift p).
Proof. intros Hp c r. unfold clift. destruct (Hp r) as [H _]. apply adv_len in H. destruct (p r). exact H. Qed.
Lemma bl_bind {C E A B} (p : cparser C E A) (f : A -> cparser C E B) : backless p -> (forall x, backless (f x)) -> backless (cbind p f).
Proof.
  intros Hp Hf c r. unfold cbind. specialize (Hp c r). destruct (p c r) as [[c1 r1] [x|e| |]]; cbn [fst snd] in *; auto.
  specialize (Hf x c1 r1). lia.
Qed.
Lemma bl_in_sub {C E A} (g : perr -> E) n (p : cparser C E A) : backless (in_sub g n p).
Proof.
  unfold in_sub. apply bl_bind; [apply bl_lift; psafe|]. intros sub c r. unfold con_sub. destruct (p c sub) as [[? ?] ?]. reflexivity.
Qed.
Lemma ge_mirrored : geats (cbind parse_mirrored (fun x => cret (Some x))).
Proof.
  assert (H : geats parse_mirrored).
  { unfold parse_mirrored. apply ge_head. intros code. destruct (_ && _); [apply bl_fail|].
    apply bl_bind; [apply bl_lift; unfold brd; psafe|intros]. apply bl_in_sub. }
  intros c r x. unfold cbind. specialize (H c r). destruct (parse_mirrored c r) as [[c1 r1] [y|e| |]]; cbn [fst snd cret] in *; try discriminate.
  intros _. apply (H y eq_refl).
Qed.

(* ---- v4 route monitoring ---- *)
Lemma small_counts_labels l : small_counts l -> forall m : label_limits, small_limits m ->
  small_limits (fold_left (fun m f => mset at_eqb (fst f) (snd f) m) l m).
Proof.
  induction l as [|[t n] l IH]; intros Hl m Hm; cbn [fold_left fst snd]; [exact Hm|].
  inversion Hl as [|? ? Hn Hl']; subst. cbn [snd] in Hn. apply IH; [exact Hl'|]. intros t'. unfold limit_of.
  rewrite (mget_mset at_eqb at_spec). destruct (at_eqb t' t); [exact Hn|apply Hm].
Qed.
Lemma small_capability c out x : (forall l, c = CMultipleLabels l -> small_counts l) -> small1 x -> small1 (update_capability c out x).
Proof.
  intros Hc Hx. destruct c; try exact Hx. unfold small1. cbn [update_capability x_labels]. apply small_counts_labels; [|exact Hx].
  apply Hc. reflexivity.
Qed.
Lemma safe_mark : safe parse_mark. Proof. unfold parse_mark, brd. psafe. Qed.
Lemma u16_inside r r1 n : brd read_u16 r = (r1, Ok n) -> exists a b, rbuf r = a :: b :: rbuf r1 /\ be_val [a; b] = n.
Proof.
  unfold brd, pmap_err. destruct (read_u16 r) as [r' [v|e| |]] eqn:H; cbn [map_err]; intros Hx; try discriminate.
  injection Hx as <- <-. unfold read_u16, read_be, bind in H. destruct (read_bytes 2 r) as [r2 [b|e| |]] eqn:Hb; try discriminate.
  unfold ret in H. injection H as <- <-. unfold read_bytes in Hb. destruct (blen (rbuf r) <? 2) eqn:Hn; [discriminate|].
  injection Hb as <- <-. cbn [rbuf]. destruct (rbuf r) as [|x [|y l]]; [rewrite blen_nil in Hn; lia|rewrite blen_cons, blen_nil in Hn; lia|].
  exists x, y. split; reflexivity.
Qed.
Definition gat {C E A} (S : C -> Prop) (p : cparser C E A) (c : C) (r : reader) : Prop :=
  adv r (snd (fst (p c r))) /\ S (fst (fst (p c r))) /\ no_crash (snd (p c r)).
Lemma gat_lift_bind {C E A B} (S : C -> Prop) (p : parser E A) (f : A -> cparser C E B) c r : S c -> safe p ->
  (forall x r', p r = (r', Ok x) -> adv r r' -> gat S (f x) c r') -> gat S (cbind (clift p) f) c r.
Proof.
  intros Hc Hp Hf. unfold gat, cbind, clift. destruct (Hp r) as [H1 H2].
  destruct (p r) as [r' [x|e| |]]; cbn [fst snd] in *; try contradiction; auto.
  destruct (Hf x r' eq_refl H1) as (H3 & H4 & H5). split; [eapply adv_trans; eauto|auto].
Qed.
Lemma gat_in_sub {C E A} (S : C -> Prop) (g : perr -> E) n (p : cparser C E A) c r : S c ->
  (forall sub r', take_slice n r = (r', Ok sub) -> gat S p c sub) -> gat S (in_sub g n p) c r.
Proof.
  intros Hc Hp. unfold in_sub. apply gat_lift_bind; [exact Hc|apply safe_map_err, safe_take_slice|].
  intros sub r' Ht Ha. unfold pmap_err in Ht. destruct (take_slice n r) as [r1 [y|e| |]] eqn:Hy; cbn [map_err] in Ht; try discriminate.
  injection Ht as <- <-. destruct (Hp y r1 eq_refl) as (H1 & H2 & H3). unfold gat, con_sub.
  destruct (p c y) as [[c1 r2] x]. cbn [fst snd] in *. split; [apply adv_refl|auto].
Qed.
Lemma counts_dec (e : addr_type * N) : {snd e <= 7} + {~ snd e <= 7}.
Proof. destruct (snd e <=? 7) eqn:H; [left|right]; lia. Qed.
Section frame.
Variable F : list N.
Hypothesis sane : ~ overlabelled F.
Lemma gs_rm_tlv out : gsafe F small1 (parse_rm_tlv out).
Proof.
  intros c r Hc Hi. change (gat small1 (parse_rm_tlv out) c r). unfold parse_rm_tlv.
  assert (Hu : safe (brd read_u16)) by apply safe_map_err, safe_be.
  apply gat_lift_bind; [exact Hc|exact Hu|]. intros t r1 E1 A1.
  apply gat_lift_bind; [exact Hc|exact Hu|]. intros len r2 E2 A2.
  apply gat_lift_bind; [exact Hc|exact Hu|]. intros index r3 E3 A3.
  apply gat_lift_bind; [exact Hc|apply safe_get_reader|]. intros r0 r3' E _. unfold get_reader in E. injection E as <- <-.
  destruct (remaining r3 <? len); [split; [apply adv_refl|split; [exact Hc|exact Logic.I]]|].
  assert (Hi3 : infix (rbuf r3) F) by (eapply infix_adv; [eapply infix_adv; [eapply infix_adv; [exact Hi|exact A1]|exact A2]|exact A3]).
  apply gat_in_sub; [exact Hc|]. intros sub r4 E4. destruct (slice_inside _ _ _ _ E4) as [Hs Hl].
  destruct (t =? 1) eqn:Et.
  - apply gat_lift_bind; [exact Hc|apply safe_map_err, safe_cap|]. intros cp r5 E5 A5.
    unfold pmap_err in E5. destruct (parse_cap sub) as [r6 [cp'|e| |]] eqn:E6; cbn [map_err] in E5; try discriminate.
    injection E5 as <- <-. unfold gat. cbn [fst snd]. split; [apply adv_refl|]. split; [|exact Logic.I].
    apply small_capability; [|exact Hc]. intros l ->.
    destruct (Forall_dec (fun e : addr_type * N => snd e <= 7) counts_dec l) as [Hok|Hno]; [exact Hok|].
    exfalso. apply sane. destruct Hi as (pre & post & ->).
    apply u16_inside in E1 as (t1 & t2 & B1 & V1). apply u16_inside in E2 as (l1 & l2 & B2 & V2).
    apply u16_inside in E3 as (i1 & i2 & B3 & V3).
    exists pre, t1, t2, l1, l2, i1, i2, (rbuf sub), (rbuf r4 ++ post), (roff sub), r6, l.
    split; [rewrite B1, B2, B3, Hs; cbn [app]; now rewrite <- !app_assoc|].
    split; [rewrite V1; lia|]. split; [rewrite V2; lia|]. split; [destruct sub; exact E6|exact Hno].
  - match goal with |- gat small1 ?p c sub => assert (H : gsafe F small1 p) end.
    { destruct (t =? 2).
      { apply gs_bind; [apply gs_lift, safe_many_all; [exact Hu|apply strict_brd, strict_u16]|intros].
        destruct (flag_set _ _); [apply gs_ret|apply gs_fail]. }
      destruct (t =? 3).
      { apply gs_bind; [apply gs_lift, safe_rest|intros]. destruct (negb _); [apply gs_fail|]. destruct (_ <? _); [apply gs_fail|apply gs_ret]. }
      destruct (t =? 5); [apply gs_bind; [apply gs_lift, safe_mark|intros; apply gs_ret]|].
      apply gs_bind; [apply gs_lift, safe_rest|intros; apply gs_ret]. }
    apply (H c sub Hc). destruct Hi3 as (a & z & ->). rewrite Hs. exists a, (rbuf r4 ++ z). now rewrite <- !app_assoc.
Qed.
Definition small2 (c : bctx * option reader) : Prop := small1 (fst c).
Lemma gs_rm_step out : gsafe F small2 (rm_step out).
Proof.
  unfold rm_step. apply gs_bind; [apply gs_lift; unfold brd; psafe|intros t]. destruct (t =? 4).
  - repeat (apply gs_bind; [apply gs_lift; unfold brd; psafe|intros]). intros c r Hc Hi. cbn [fst snd].
    split; [apply adv_refl|split; [exact Hc|exact Logic.I]].
  - intros [x q] r Hc Hi. unfold small2 in *. cbn [fst snd] in *. destruct (gs_rm_tlv out x r Hc Hi) as (H1 & H2 & H3).
    destruct (parse_rm_tlv out x r) as [[x' r'] [a|e| |]]; cbn [fst snd] in *; auto.
Qed.
End frame.
Lemma bl_rm_tlv out : geats (parse_rm_tlv out).
Proof.
  unfold parse_rm_tlv. apply ge_head. intros t. apply bl_bind; [apply bl_lift; unfold brd; psafe|intros].
  apply bl_bind; [apply bl_lift; unfold brd; psafe|intros]. apply bl_bind; [apply bl_lift; psafe|intros].
  destruct (_ <? _); [apply bl_fail|apply bl_in_sub].
Qed.
Lemma peek_same n r : fst (brd (peek_be n) r) = r.
Proof. unfold brd, pmap_err, peek_be. destruct (_ <? _); reflexivity. Qed.
Lemma ge_after {C E A B} (p : parser E A) (f : A -> cparser C E B) : (forall r, fst (p r) = r) -> (forall x, geats (f x)) ->
  geats (cbind (clift p) f).
Proof.
  intros Hp Hf c r x. unfold cbind, clift. specialize (Hp r). destruct (p r) as [r' [y|e| |]]; cbn [fst snd] in *; try discriminate.
  subst r'. apply Hf.
Qed.
Lemma ge_rm_step out : geats (rm_step out).
Proof.
  unfold rm_step. apply ge_after; [apply peek_same|]. intros t. destruct (t =? 4).
  - apply ge_head. intros _. repeat (apply bl_bind; [apply bl_lift; unfold brd; psafe|intros]). intros ? ?. reflexivity.
  - intros c r x. pose proof (bl_rm_tlv out (fst c) r) as H.
    destruct (parse_rm_tlv out (fst c) r) as [[x' r'] [a|e| |]]; cbn [fst snd] in *; try discriminate.
    intros _. apply (H a eq_refl).
Qed.

(* ---- all peers ---- *)
Definition small_all (m : bmpctx) : Prop := forall k, small_limits (x_labels (peer_ctx k m)).
Section message.
Variable F : list N.
Hypothesis sane : ~ overlabelled F.
Lemma gs_on_peer {A} h (p : cparser bctx bmp_err A) : gsafe F small1 p -> gsafe F small_all (on_peer h p).
Proof.
  intros Hp m r Hm Hi. unfold on_peer. destruct (Hp (set_asn4 (is_asn4 h) (peer_ctx (key_of h) m)) r (Hm (key_of h)) Hi) as (H1 & H2 & H3).
  destruct (p _ r) as [[c' r'] x]. cbn [fst snd] in *. split; [exact H1|]. split; [|exact H3].
  intros k. rewrite peer_ctx_mset. destruct (pkey_eqb _ _); [exact H2|apply Hm].
Qed.
Lemma gs_rm_body h x : small1 x -> forall r, infix (rbuf r) F -> adv r (fst (rm_body h x r)) /\ no_crash (snd (rm_body h x r)).
Proof.
  intros Hx r Hi. unfold rm_body.
  destruct (gs_many_all F small2 _ (gs_rm_step F sane (adj_rib_out h)) (ge_rm_step (adj_rib_out h)) (x, None) r Hx Hi) as (H1 & H2 & H3).
  destruct (cmany_all (rm_step (adj_rib_out h)) (x, None) r) as [[[x1 pdu] r1] [l|e| |]]; cbn [fst snd] in *; try contradiction; auto.
  destruct pdu as [sub|]; cbn [fst snd]; auto. destruct (cs_pdu x1 sub H2) as (_ & _ & H4).
  destruct (bgp_pdu x1 sub) as [[? ?] [m|e| |]]; cbn [fst snd] in *; try contradiction; auto.
  split; [exact H1|]. destruct (msg_type m); exact Logic.I.
Qed.
Lemma gs_value v : gsafe F small_all (parse_value v).
Proof.
  unfold parse_value. apply gs_bind; [apply gs_lift; unfold brd; psafe|intros code].
  destruct (code =? 0); [destruct (v =? 3)|destruct (code =? 2); [destruct (v =? 3)|]].
  - unfold parse_monitoring3. apply gs_bind; [apply gs_lift, safe_header|intros h].
    apply gs_bind; [apply gs_on_peer, gs_csafe, cs_pdu|intros m]. destruct (msg_type m); apply gs_ret || apply gs_fail.
  - unfold parse_monitoring4. apply gs_bind; [apply gs_lift, safe_header|intros h]. apply gs_on_peer.
    intros x r Hx Hi. destruct (gs_rm_body h x Hx r Hi) as [H1 H2]. destruct (rm_body h x r). cbn [fst snd] in *. auto.
  - unfold parse_down3. apply gs_bind; [apply gs_lift, safe_header|intros h].
    apply gs_bind; [apply gs_on_peer, gs_reason|intros d]. destruct (check_reason d); apply gs_ret || apply gs_fail.
  - unfold parse_down4. apply gs_bind; [apply gs_lift, safe_header|intros h].
    apply gs_bind; [apply gs_on_peer, gs_reason|intros d].
    apply gs_bind; [apply gs_lift, safe_many_all; [apply safe_raw_tlv|apply strict_raw_tlv]|intros l].
    destruct (check_reason d); apply gs_ret || apply gs_fail.
  - apply gs_bind; [|intros; apply gs_ret]. unfold parse_common.
    destruct (code =? 1); [apply gs_lift, safe_stats|].
    destruct (code =? 3).
    { apply gs_bind; [|intros; apply gs_ret]. unfold parse_up. apply gs_bind; [apply gs_lift, safe_header|intros h].
      do 3 (apply gs_bind; [apply gs_lift; unfold brd; psafe|intros]).
      do 2 (apply gs_bind; [apply gs_on_peer, gs_csafe, cs_pdu|intros]).
      apply gs_bind; [apply gs_lift, safe_many_all; [apply safe_info|apply strict_info]|intros].
      destruct (negb _); [apply gs_fail|]. destruct (negb _); [apply gs_fail|apply gs_ret]. }
    destruct (code =? 4); [apply gs_bind; [apply gs_lift, safe_many_all; [apply safe_info|apply strict_info]|intros; apply gs_ret]|].
    destruct (code =? 5); [apply gs_bind; [apply gs_lift, safe_many_all; [apply safe_term|apply strict_term]|intros; apply gs_ret]|].
    destruct (code =? 6).
    { unfold parse_mirroring. apply gs_bind; [apply gs_lift, safe_header|intros h].
      apply gs_bind; [apply gs_on_peer, gs_many_all; [apply gs_bind; [apply gs_mirrored|intros; apply gs_ret]|apply ge_mirrored]|intros; apply gs_ret]. }
    destruct (xp_of 251 code); [|apply gs_fail]. apply gs_bind; [apply gs_lift, safe_rest|intros; apply gs_ret].
Qed.
Lemma gs_bmp : gsafe F small_all parse_bmp.
Proof.
  unfold parse_bmp. apply gs_bind; [apply gs_lift; unfold brd; psafe|intros v]. destruct (negb _); [apply gs_fail|].
  apply gs_bind; [apply gs_lift; unfold brd; psafe|intros len]. destruct (_ <? _); [apply gs_fail|]. apply gs_in_sub.
  apply gs_bind; [apply gs_value|intros]. apply gs_bind; [apply gs_lift; psafe|intros]. destruct (ris_empty _); [apply gs_ret|apply gs_fail].
Qed.
End message.

(* ---- negotiation ---- *)
Lemma agreed_small so ro t n : small_counts (label_entries so) -> agreed_label so ro t = Some n -> n <= 7.
Proof.
  unfold agreed_label. generalize (label_entries ro) as b.
  assert (H : forall (b a : list (addr_type * N)) acc, small_counts a -> (forall k, acc = Some k -> k <= 7) ->
    forall k, fold_left (fun acc e => if addr_type_eq_dec t (fst e) then
       (if in_dec label_entry_eq_dec e b then Some (snd e) else acc) else acc) a acc = Some k -> k <= 7).
  { intros b. induction a as [|[t' n'] a IH]; intros acc Ha Hacc k; cbn [fold_left fst snd]; [apply Hacc|].
    inversion Ha as [|? ? Hn Ha']; subst. cbn [snd] in Hn. apply IH; [exact Ha'|]. intros k'. destruct (addr_type_eq_dec t t'); [|apply Hacc].
    destruct (in_dec _ _ _); [|apply Hacc]. intros Hk. injection Hk as <-. exact Hn. }
  intros b Ha. apply H; [exact Ha|discriminate].
Qed.
Lemma small_neg out local remote so ro x : small_counts (label_entries so) -> small1 x ->
  small1 (apply_negotiated out local remote (common_labels (label_entries so) (label_entries ro)) x).
Proof.
  intros Hs Hx t. rewrite negotiated_labels. destruct (agreed_label so ro t) eqn:Ha; [eapply agreed_small; eauto|apply Hx].
Qed.
Lemma small_all_set m k x : small_all m -> small1 x -> small_all (mset pkey_eqb k x m).
Proof. intros Hm Hx q. rewrite peer_ctx_mset. destruct (pkey_eqb _ _); [exact Hx|apply Hm]. Qed.
Lemma small_default : small_limits (x_labels default_ctx).
Proof. intros t. cbn. lia. Qed.
Lemma small_update msg m : (forall e, event_of msg = Some e -> small_event e) -> small_all m -> small_all (ctx_update msg m).
Proof.
  intros He Hm.
  assert (Hup : forall p, (forall e, event_of (V3Common (CUp p)) = Some e -> small_event e) -> small_all (handle_peer_up p m)).
  { intros p Hp. unfold handle_peer_up. cbn [event_of] in Hp. destruct (pu_sent p) as [so| | | |]; try exact Hm.
    destruct (pu_recv p) as [ro| | | |]; try exact Hm. specialize (Hp _ eq_refl). cbn [small_event] in Hp. cbv zeta.
    change (label_caps (open_caps so)) with (label_entries so). change (label_caps (open_caps ro)) with (label_entries ro).
    assert (H1 : forall x, small1 x -> small1 (clear_negotiated x)) by (intros x _ t; cbn; lia).
    destruct (is_locrib (pu_hdr p)).
    - apply small_all_set; [exact Hm|]. apply small_neg; [exact Hp|apply Hm].
    - assert (Hm1 := Hm). apply small_all_set.
      + apply small_all_set; [exact Hm|]. apply small_neg; [exact Hp|]. apply H1, Hm.
      + apply small_neg; [exact Hp|]. unfold small1. apply small_all_set; [exact Hm|]. apply small_neg; [exact Hp|]. apply H1, Hm. }
  assert (Hdown : forall h, small_all (mrem pkey_eqb (key_of h) m)).
  { intros h k. rewrite peer_ctx_mrem. destruct (pkey_eqb _ _); [apply small_default|apply Hm]. }
  destruct msg as [h0 u|h0 r|[| | | | |]|h0 u l|h0 r l|[| | | | |]]; cbn [ctx_update event_of] in *; try exact Hm; try apply Hdown;
    try (apply Hup; assumption); intros k; apply small_default.
Qed.

(* ---- streams ---- *)
Lemma bmp_decode_safe F k b : ~ overlabelled F -> infix b F -> bmp_inv k b -> small_all (bk_ctx k) ->
  forall k' b' o, bmp_decode k b = (k', b', o) -> o <> DPanic /\ infix b' F /\
    (match o with DItem msg => exists m, small_all m /\ bk_ctx k' = ctx_update msg m | _ => small_all (bk_ctx k') end).
Proof.
  intros Hsane Hi Hinv Hs k' b' o Hd.
  assert (Hdrop : forall n, infix (drop n b) F).
  { intros n. destruct Hi as (pre & post & ->). exists (pre ++ take n b), post. rewrite <- app_assoc.
    rewrite (app_assoc (take n b)), take_drop. reflexivity. }
  destruct (bmp_decode_cases k b Hinv) as
    [(H5 & Hk & H)|[(H5 & Hv & H & Hk)|[(H5 & Hv & Hl & H)|[(H5 & Hv & Hl & Hw & H)|(H5 & Hv & Hl & H)]]]];
    rewrite H in Hd; try (injection Hd as <- <- <-; repeat split; try discriminate; try apply Hdrop; assumption).
  destruct (gs_bmp F Hsane (bk_ctx k) (rnew (take (frame_length b) b)) Hs) as (_ & H2 & H3).
  { cbn [rnew rbuf]. destruct Hi as (pre & post & ->). exists pre, (drop (frame_length b) b ++ post).
    rewrite (app_assoc (take _ b)), take_drop. reflexivity. }
  destruct (parse_bmp _ _) as [[m r] [msg|e| |]]; cbn [fst snd] in *; try contradiction; injection Hd as <- <- <-.
  - split; [discriminate|]. split; [apply Hdrop|]. exists m. split; [exact H2|reflexivity].
  - split; [discriminate|]. split; [apply Hdrop|exact H2].
Qed.
Lemma drain_safe F : ~ overlabelled F -> forall fuel k b k' b' os st,
  drain_fuel (resume bmp_decode) fuel k b = (k', b', os, st) -> infix b F -> bmp_inv k b -> small_all (bk_ctx k) ->
  Forall small_event (history os) -> ~ In DPanic os.
Proof.
  intros Hsane. induction fuel as [|f IH]; intros k b k' b' os st Hd Hi Hinv Hs HP; cbn [drain_fuel] in Hd.
  - injection Hd as <- <- <- <-. intros [].
  - destruct (resume bmp_decode k b) as [[k1 b1] o] eqn:Hr.
    destruct (resume_inv _ _ _ _ _ _ Hr) as (o' & Ho & Hoo).
    destruct (bmp_decode_safe F k b Hsane Hi Hinv Hs _ _ _ Ho) as (Hnp & Hi1 & Hc).
    pose proof (bmp_inv_step _ _ _ _ _ Hinv Ho) as Hinv1.
    destruct o as [|[msg|e]|e|]; cbn [is_none halts] in Hd; subst.
    + injection Hd as <- <- <- <-. intros [].
    + destruct (drain_fuel (resume bmp_decode) f k1 b1) as [[[k2 b2] os2] st2] eqn:Hd2. injection Hd as <- <- <- <-.
      rewrite history_cons_item in *. apply Forall_app in HP as [HP1 HP2].
      intros [Hx|Hx]; [discriminate|]. revert Hx. eapply IH; [exact Hd2|exact Hi1|exact Hinv1| |exact HP1].
      destruct Hc as (m & Hm & ->). apply small_update; [|exact Hm]. intros e He. rewrite He in HP2. inversion HP2; assumption.
    + destruct (drain_fuel (resume bmp_decode) f k1 b1) as [[[k2 b2] os2] st2] eqn:Hd2. injection Hd as <- <- <- <-.
      intros [Hx|Hx]; [discriminate|]. revert Hx. eapply IH; [exact Hd2|exact Hi1|exact Hinv1|exact Hc|exact HP].
    + contradiction.
    + congruence.
Qed.
Lemma stream_safe xs : ~ overlabelled (concat xs) ->
  let c := feed_all (resume bmp_decode) (conn_new bmp_default) xs in
  Forall small_event (history (c_out c)) -> ~ In DPanic (c_out c).
Proof.
  cbv zeta. intros Hs HP. destruct (feed_all_drain bmp_default xs eq_refl) as (st & Hd & _). unfold drain in Hd.
  eapply (drain_safe (concat xs) Hs); [exact Hd| | | |exact HP].
  - exists [], []. now rewrite app_nil_r.
  - intros Hx. discriminate.
  - intros k. apply small_default.
Qed.
