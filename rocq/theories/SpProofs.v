From Coq Require Import Permutation.
From Verif Require Import Base BaseLemmas AfModel BgpCapModel BgpFrameModel BgpNlriModel BgpAttrModel BgpMsgModel SpModel SpSpec.

(* ---- connection ---- *)
Section Conn.
Context (third jit : N -> N) (my_open : open_msg).
Notation handle_event := (handle_event third jit).
Notation cstep := (cstep third jit my_open).
Notation crun := (crun third jit my_open).
Notation life := (life third jit my_open).

Lemma state_negotiate c : c_state (negotiate third c) = c_state c.
Proof. unfold negotiate. destruct (_ =? 0); reflexivity. Qed.
Lemma state_start_negotiated now c : c_state (start_negotiated jit now c) = c_state c.
Proof. unfold start_negotiated. destruct (_ =? 0); cbn; destruct (_ =? 0); reflexivity. Qed.
Lemma state_start_hold now c : c_state (start_hold now c) = c_state c.
Proof. unfold start_hold. destruct (_ =? 0); reflexivity. Qed.
Lemma state_sent now m c : c_state (sent now m c) = c_state c.
Proof. destruct m; reflexivity. Qed.
Lemma conf_negotiate c : c_conf (negotiate third c) = c_conf c.
Proof. unfold negotiate. destruct (_ =? 0); reflexivity. Qed.
Lemma conf_start_negotiated now c : c_conf (start_negotiated jit now c) = c_conf c.
Proof. unfold start_negotiated. destruct (_ =? 0); cbn; destruct (_ =? 0); reflexivity. Qed.
Lemma conf_start_hold now c : c_conf (start_hold now c) = c_conf c.
Proof. unfold start_hold. destruct (_ =? 0); reflexivity. Qed.
Lemma conf_sent now m c : c_conf (sent now m c) = c_conf c.
Proof. destruct m; reflexivity. Qed.

Lemma handle_conf now o w e c c' ms ok : handle_event now o w e c = (c', ms, ok) -> c_conf c' = c_conf c.
Proof.
  unfold SpModel.handle_event, on_connected, on_open_sent, on_open_confirm, on_established, notify, stop.
  destruct (c_state c), e; cbn -[negotiate start_negotiated start_hold read_open];
    repeat match goal with |- context [if ?b then _ else _] => destruct b end;
    intros E; inversion E; subst; cbn -[negotiate start_negotiated start_hold read_open];
    rewrite ?conf_start_negotiated, ?conf_negotiate, ?conf_start_hold; reflexivity.
Qed.
Lemma handle_next now o e c c' ms ok :
  handle_event now o true e c = (c', ms, ok) -> ok = true /\ In (c_state c') (rfc_next (c_state c) e).
Proof.
  unfold SpModel.handle_event, on_connected, on_open_sent, on_open_confirm, on_established, notify, stop.
  destruct (c_state c) eqn:S, e; cbn -[negotiate start_negotiated start_hold read_open];
    repeat match goal with |- context [if ?b then _ else _] => destruct b end;
    intros E; inversion E; subst; cbn -[negotiate start_negotiated start_hold read_open];
    rewrite ?state_start_negotiated, ?state_negotiate, ?state_start_hold, ?S; auto 6.
Qed.
Lemma handle_next_failed now o w e c c' ms ok :
  handle_event now o w e c = (c', ms, ok) -> In (c_state c') (rfc_next (c_state c) e) \/ c_state c' = c_state c.
Proof.
  destruct w; [intros H; left; eapply (proj2 (handle_next _ _ _ _ _ _ _ H))|].
  unfold SpModel.handle_event, on_connected, on_open_sent, on_open_confirm, on_established, notify, stop.
  destruct (c_state c) eqn:S, e; cbn -[negotiate start_negotiated start_hold read_open];
    repeat match goal with |- context [if ?b then _ else _] => destruct b end;
    intros E; inversion E; subst; cbn -[negotiate start_negotiated start_hold read_open];
    rewrite ?state_start_negotiated, ?state_negotiate, ?state_start_hold, ?S; auto 6.
Qed.

Lemma input_event_state i c e c1 : input_event i c = (e, c1) -> c_state c1 = c_state c /\ c_conf c1 = c_conf c.
Proof.
  destruct i as [m errs| | | |]; cbn; [destruct m|..]; intros E; inversion E; subst; split; reflexivity.
Qed.
Lemma poll_state now i c e c1 : poll now i c = Some (e, c1) -> c_state c1 = c_state c /\ c_conf c1 = c_conf c.
Proof.
  unfold poll. destruct (due now (c_ka c)); [intros E; inversion E; subst; split; reflexivity|].
  destruct (due now (c_delay c)); [intros E; inversion E; subst; split; reflexivity|].
  destruct (due now (c_hold c)); [intros E; inversion E; subst; split; reflexivity|].
  destruct i as [i|]; [|discriminate]. intros E. injection E as E. apply (input_event_state i c e c1). exact E.
Qed.

Lemma crun_app c xs ys : crun c (xs ++ ys) =
  let '(c1, h1) := crun c xs in let '(c2, h2) := crun c1 ys in (c2, h1 ++ h2).
Proof.
  revert c. induction xs as [|[t a] xs IH]; intros c; cbn.
  - destruct (crun c ys). reflexivity.
  - destruct (cstep c t a) as [c1 h]. rewrite IH. destruct (crun c1 xs) as [c2 h2].
    destruct (crun c2 ys) as [c3 h3]. rewrite app_assoc. reflexivity.
Qed.

(* an invariant of the connection and its history *)
Lemma crun_inv (I : conn -> list entry -> Prop) (A : N * cact -> Prop) :
  (forall c h now a c' h', A (now, a) -> I c h -> cstep c now a = (c', h') -> I c' (h ++ h')) ->
  forall xs c h c' h', Forall A xs -> I c h -> crun c xs = (c', h') -> I c' (h ++ h').
Proof.
  intros Hs. induction xs as [|[t a] xs IH]; intros c h c' h' HA HI E; cbn in E.
  - inversion E; subst. rewrite app_nil_r. exact HI.
  - inversion HA as [|? ? Ha HA']; subst.
    destruct (cstep c t a) as [c1 h1] eqn:E1. destruct (crun c1 xs) as [c2 h2] eqn:E2.
    inversion E; subst. rewrite app_assoc. eapply IH; eauto.
Qed.

(* ---- histories ---- *)
Lemma last_open_snoc h e : last_open (h ++ [e]) = match is_open e with Some o => Some o | None => last_open h end.
Proof.
  induction h as [|x h IH]; cbn; [destruct (is_open e); reflexivity|].
  rewrite IH. destruct (is_open e); reflexivity.
Qed.
Lemma last_time_snoc p h e : last_time p (h ++ [e]) = if p e then Some (e_time e) else last_time p h.
Proof.
  induction h as [|x h IH]; cbn; [destruct (p e); reflexivity|].
  rewrite IH. destruct (p e); reflexivity.
Qed.

(* ---- C28 ---- *)
Definition sound_asn (pa : option N) (c : conn) : Prop := pa = None \/ c_peer_asn c = pa.

Lemma asn4_caps_in a cs : In a (asn4_caps cs) <-> In (CFourOctetAs a) cs.
Proof.
  unfold asn4_caps. rewrite in_flat_map. split.
  - intros (c & Hc & Ha). destruct c; cbn in Ha; try (now destruct Ha). destruct Ha as [<-|[]]. exact Hc.
  - intros H. exists (CFourOctetAs a). split; [exact H|left; reflexivity].
Qed.
Lemma asn4_caps_app l r : asn4_caps (l ++ r) = asn4_caps l ++ asn4_caps r.
Proof. unfold asn4_caps. apply flat_map_app. Qed.
Lemma last_app_cons {A} (l r : list A) x d : last (l ++ x :: r) d = last r x.
Proof.
  induction l as [|y l IH].
  - cbn [app]. revert x d. induction r as [|y r IH]; intros x d; [reflexivity|].
    change (last (x :: y :: r) d) with (last (y :: r) d). rewrite (IH y d). change (last (y :: r) x) with (match r with [] => y | _ => last r x end).
    destruct r as [|z r]; [reflexivity|]. rewrite <- (IH y x). reflexivity.
  - rewrite <- app_comm_cons. cbn [last]. destruct (l ++ x :: r) eqn:E; [now destruct l|]. exact IH.
Qed.
Lemma speaks_for_spec o a : speaks_for o a <-> my_asn4 o = a.
Proof.
  unfold my_asn4. split.
  - intros [H|l b r E H].
    + destruct (asn4_caps (open_caps o)) as [|x xs] eqn:E; [reflexivity|].
      exfalso. apply (H x). apply asn4_caps_in. rewrite E. now left.
    + rewrite E, asn4_caps_app. cbn [asn4_caps flat_map app]. change (flat_map _ r) with (asn4_caps r).
      replace (asn4_caps r) with (@nil N); [apply last_app_cons|].
      destruct (asn4_caps r) as [|x xs] eqn:E'; [reflexivity|].
      exfalso. apply (H x). apply asn4_caps_in. rewrite E'. now left.
  - intros <-.
    assert (G : forall cs d, (asn4_caps cs = [] /\ last (asn4_caps cs) d = d) \/
       exists l a r, cs = l ++ CFourOctetAs a :: r /\ asn4_caps r = [] /\ last (asn4_caps cs) d = a).
    { induction cs as [|c cs IH]; intros d; [left; split; reflexivity|].
      destruct (IH d) as [[E L]|(l & a & r & E & E' & L)].
      - destruct (asn4_caps [c]) as [|a []] eqn:Ec.
        + left. change (c :: cs) with ([c] ++ cs). rewrite asn4_caps_app, Ec. split; assumption.
        + right. destruct c; cbn in Ec; try discriminate. inversion Ec; subst.
          exists [], a, cs. split; [reflexivity|]. split; [exact E|].
          change (CFourOctetAs a :: cs) with ([CFourOctetAs a] ++ cs). rewrite asn4_caps_app, E. reflexivity.
        + destruct c; cbn in Ec; discriminate.
      - right. exists (c :: l), a, r. split; [rewrite E; reflexivity|]. split; [exact E'|].
        rewrite E. change (c :: l ++ CFourOctetAs a :: r) with ((c :: l) ++ CFourOctetAs a :: r). rewrite asn4_caps_app.
        change (CFourOctetAs a :: r) with ([CFourOctetAs a] ++ r). rewrite asn4_caps_app, E'. cbn [asn4_caps flat_map app].
        rewrite last_app_cons. reflexivity. }
    destruct (G (open_caps o) (o_as o)) as [[E L]|(l & a & r & E & E' & L)]; rewrite L.
    + apply for_header. intros a Ha. apply asn4_caps_in in Ha. rewrite E in Ha. destruct Ha.
    + apply (for_cap o l a r E). intros b Hb. apply asn4_caps_in in Hb. rewrite E' in Hb. destruct Hb.
Qed.
Lemma acceptable_spec o pa : acceptable o pa <-> match pa with Some a => my_asn4 o = a | None => True end.
Proof. destruct pa; cbn; [apply speaks_for_spec|reflexivity]. Qed.

Lemma poll_event now i c e c1 : poll now i c = Some (e, c1) ->
  match e with
  | EvOpen o => exists errs, i = Some (IMsg (MOpen o) errs) /\ match c_peer_asn c with Some a => my_asn4 o = a | None => True end
  | EvOpenDelay o => exists errs, i = Some (IMsg (MOpen o) errs) /\ match c_peer_asn c with Some a => my_asn4 o = a | None => True end
  | EvKeepalive => exists errs, i = Some (IMsg MKeepAlive errs)
  | EvNotifErr => exists x, i = Some (IErr x)
  | _ => True
  end /\ c_peer_asn c1 = c_peer_asn c.
Proof.
  unfold poll. destruct (due now (c_ka c)); [intros E; inversion E; subst; split; [exact I|reflexivity]|].
  destruct (due now (c_delay c)); [intros E; inversion E; subst; split; [exact I|reflexivity]|].
  destruct (due now (c_hold c)); [intros E; inversion E; subst; split; [exact I|reflexivity]|].
  destruct i as [i|]; [|discriminate]. intros E. injection E as E.
  destruct i as [m errs|x| | |]; cbn in E; [destruct m as [o|u|n| |r]|..]; inversion E; subst; clear E;
    try (split; [exact I|reflexivity]).
  - unfold open_event. destruct (c_peer_asn c) as [a|] eqn:Ea.
    + destruct (N.eqb_spec a (my_asn4 o)); [|split; [exact I|exact Ea]].
      destruct (c_delay c); (split; [exists errs; split; [reflexivity|rewrite ?Ea; congruence]|exact Ea]).
    + destruct (c_delay c); (split; [exists errs; split; [reflexivity|rewrite ?Ea; exact I]|exact Ea]).
  - unfold update_event.
    repeat match goal with |- context [if ?b then _ else _] => destruct b end; (split; [exact I|reflexivity]).
  - destruct (_ && _); (split; [exact I|reflexivity]).
  - split; [exists errs; reflexivity|reflexivity].
  - split; [|reflexivity]. destruct x as [| | | | |[]]; cbn; try exact I. eexists; reflexivity.
Qed.
Lemma asn_negotiate c : c_peer_asn (negotiate third c) = c_peer_asn c.
Proof. unfold negotiate. destruct (_ =? 0); reflexivity. Qed.
Lemma asn_start_negotiated now c : c_peer_asn (start_negotiated jit now c) = c_peer_asn c.
Proof. unfold start_negotiated. destruct (_ =? 0); cbn; destruct (_ =? 0); reflexivity. Qed.
Lemma asn_start_hold now c : c_peer_asn (start_hold now c) = c_peer_asn c.
Proof. unfold start_hold. destruct (_ =? 0); reflexivity. Qed.

Lemma handle_asn now o w e c c' ms ok : handle_event now o w e c = (c', ms, ok) ->
  c_peer_asn c' = c_peer_asn c \/ exists m, (e = EvOpen m \/ e = EvOpenDelay m) /\ c_peer_asn c' = Some (my_asn4 m).
Proof.
  unfold SpModel.handle_event, on_connected, on_open_sent, on_open_confirm, on_established, notify, stop.
  destruct (c_state c), e; cbn -[negotiate start_negotiated start_hold read_open];
    repeat match goal with |- context [if ?b then _ else _] => destruct b end;
    intros E; inversion E; subst; cbn -[negotiate start_negotiated start_hold read_open];
    rewrite ?asn_start_negotiated, ?asn_negotiate, ?asn_start_hold; cbn; eauto.
Qed.

Definition est (pa : option N) (c : conn) (h : list entry) : Prop :=
  sound_asn pa c /\
  match c_state c with
  | OpenSent => exists e, In e h /\ wrote (MOpen my_open) e
  | OpenConfirm => opened my_open pa h
  | Established => handshake my_open pa h
  | _ => True
  end.

Lemma handshake_app pa h k : handshake my_open pa h -> handshake my_open pa (h ++ k).
Proof.
  intros (h1 & e2 & h2 & E & Ho & G). exists h1, e2, (h2 ++ k). rewrite E, <- app_assoc. auto.
Qed.
Lemma opened_quiet pa h e : opened my_open pa h -> e_recv e = None -> opened my_open pa (h ++ [e]).
Proof.
  intros (h1 & e1 & h2 & o & E & G & A & W & K & Q) He. exists h1, e1, (h2 ++ [e]), o.
  rewrite E, <- app_assoc. repeat split; try assumption. apply Forall_app. auto.
Qed.

(* what a step in a state does to the state *)
Lemma handle_into now w e c c' ms ok :
  handle_event now my_open w e c = (c', ms, ok) ->
  match c_state c' with
  | OpenSent => c_state c = OpenSent \/ In (MOpen my_open) ms
  | OpenConfirm =>
    (c_state c = OpenConfirm /\ (e = EvKeep \/ e = EvNotifErr)) \/
    (exists o, (e = EvOpen o /\ c_state c = OpenSent /\ In MKeepAlive ms) \/ (e = EvOpenDelay o /\ c_state c = Connected /\ In MKeepAlive ms /\ In (MOpen my_open) ms))
  | Established => c_state c = Established \/ (c_state c = OpenConfirm /\ e = EvKeepalive)
  | _ => True
  end.
Proof.
  unfold SpModel.handle_event, on_connected, on_open_sent, on_open_confirm, on_established, notify, stop.
  destruct (c_state c) eqn:S, e; cbn -[negotiate start_negotiated start_hold read_open];
    repeat match goal with |- context [if ?b then _ else _] => destruct b end;
    intros E; inversion E; subst; cbn -[negotiate start_negotiated start_hold read_open];
    rewrite ?state_start_negotiated, ?state_negotiate, ?state_start_hold; cbn -[negotiate start_negotiated start_hold]; rewrite ?S; auto 6.
  - right. eexists. right. repeat split; auto.
  - right. eexists. left. repeat split; auto.
Qed.

Lemma est_step pa c h now a c' h' : est pa c h -> cstep c now a = (c', h') -> est pa c' (h ++ h').
Proof.
  intros [Ha Hs] E. unfold SpSpec.cstep in E. destruct a as [ready w|m].
  2: { inversion E; subst. split; [destruct m; exact Ha|]. rewrite state_sent.
       destruct (c_state c); auto.
       - destruct Hs as (e & He & W). exists e. split; [apply in_or_app; auto|exact W].
       - apply opened_quiet; [exact Hs|reflexivity].
       - apply handshake_app, Hs. }
  destruct (poll now ready c) as [[e c1]|] eqn:P; [|inversion E; subst; rewrite app_nil_r; split; assumption].
  destruct (poll_event _ _ _ _ _ P) as [Pe Pa]. destruct (poll_state _ _ _ _ _ P) as [Ps Pc].
  destruct (handle_event now my_open w e c1) as [[c2 ms] ok] eqn:Eh. inversion E; subst; clear E.
  split.
  - destruct (handle_asn _ _ _ _ _ _ _ _ Eh) as [H|(m & Hm & H)].
    + unfold sound_asn in *. rewrite H, Pa. exact Ha.
    + unfold sound_asn in *. destruct Ha as [Ha|Ha]; [now left|]. rewrite H.
      destruct pa as [a|]; [|now left]. right. destruct Hm as [-> | ->]; destruct Pe as (errs & _ & Pe); rewrite Ha in Pe; congruence.
  - pose proof (handle_into _ _ _ _ _ _ _ Eh) as Hi.
    set (en := mkE now (Some e) (from_stream e ready) ms (c_state c) (c_state c')) in *.
    destruct (c_state c') eqn:S'; try exact I.
    + destruct Hi as [Hi|Hi].
      * rewrite <- Ps, Hi in Hs. destruct Hs as (x & Hx & W). exists x. split; [apply in_or_app; auto|exact W].
      * exists en. split; [apply in_or_app; right; left; reflexivity|exact Hi].
    + destruct Hi as [[Hi Hk]|(o & Hi)].
      * rewrite <- Ps, Hi in Hs. apply opened_quiet; [exact Hs|].
        destruct Hk as [-> | ->]; [reflexivity|]. destruct Pe as (x & ->). reflexivity.
      * assert (Hac : acceptable o pa).
        { apply acceptable_spec. destruct pa as [a|]; [|exact I]. destruct Ha as [Ha|Ha]; [discriminate|].
          rewrite Ha in Pe. destruct Hi as [[-> _]|[-> _]]; destruct Pe as (errs & _ & Pe); exact Pe. }
        exists h, en, [], o. split; [reflexivity|]. split.
        { destruct Hi as [[-> _]|[-> _]]; destruct Pe as (errs & -> & _); reflexivity. }
        split; [exact Hac|]. split; [|split; [|constructor]].
        -- destruct Hi as [(_ & Hi & _)|(_ & _ & _ & Hi)].
           ++ rewrite <- Ps, Hi in Hs. destruct Hs as (x & Hx & W). exists x. split; [apply in_or_app; auto|exact W].
           ++ exists en. split; [apply in_or_app; right; left; reflexivity|exact Hi].
        -- destruct Hi as [(_ & _ & Hi)|(_ & _ & Hi & _)]; exact Hi.
    + destruct Hi as [Hi|[Hi ->]]; rewrite <- Ps, Hi in Hs.
      * apply handshake_app, Hs.
      * exists h, en, []. split; [reflexivity|]. split; [exact Hs|].
        destruct Pe as (errs & ->). reflexivity.
Qed.
Lemma est_life pa ty cf t0 w xs c h : life pa ty cf t0 w xs = (c, h) -> est pa c h.
Proof.
  unfold SpSpec.life. destruct (handle_event t0 my_open w _ _) as [[c1 ms] ok] eqn:E1.
  destruct (crun c1 xs) as [c2 h2] eqn:E2. intros E. inversion E; subst; clear E.
  match goal with |- est _ _ (?e :: h2) => change (e :: h2) with ([e] ++ h2) end.
  refine (crun_inv (est pa) (fun _ => True) _ xs c1 _ c h2 _ _ E2).
  - intros; eapply est_step; eauto.
  - apply Forall_forall; auto.
  - pose proof (handle_into _ _ _ _ _ _ _ E1) as Hi. pose proof (handle_asn _ _ _ _ _ _ _ _ E1) as Has.
    split.
    + right. destruct Has as [->|(m & [Hm|Hm] & _)]; [reflexivity|destruct ty; discriminate..].
    + destruct (c_state c1); try exact I.
      * destruct Hi as [Hi|Hi]; [discriminate|]. eexists. split; [left; reflexivity|exact Hi].
      * destruct Hi as [[Hi _]|(o & [(Hi & _)|(Hi & _)])]; [discriminate|destruct ty; discriminate..].
      * destruct Hi as [Hi|[Hi _]]; discriminate.
Qed.

(* every step is one of RFC 4271 *)
Definition steps_ok (h : list entry) : Prop :=
  Forall (fun e => match e_event e with Some ev => In (e_after e) (rfc_next (e_before e) ev) | None => e_after e = e_before e end) h.
Lemma steps_run xs c c' h : Forall writable xs -> crun c xs = (c', h) -> steps_ok h.
Proof.
  intros HA E. apply (crun_inv (fun _ h => steps_ok h) writable) with (h := []) in E; auto.
  2: constructor.
  clear. intros c h now a c' h' Ha Hh E. apply Forall_app. split; [exact Hh|].
  unfold SpSpec.cstep in E. destruct a as [ready w|m]; [|inversion E; subst; constructor; [reflexivity|constructor]].
  destruct (poll now ready c) as [[e c1]|] eqn:P; [|inversion E; constructor].
  destruct (poll_state _ _ _ _ _ P) as [Ps _]. cbn in Ha. subst w.
  destruct (handle_event now my_open true e c1) as [[c2 ms] ok] eqn:Eh. inversion E; subst; clear E.
  constructor; [|constructor]. cbn. rewrite <- Ps. apply (handle_next _ _ _ _ _ _ _ Eh).
Qed.
Lemma chain_run xs c c' h : crun c xs = (c', h) ->
  (forall i e, nth_error h i = Some e -> e_before e = match i with O => c_state c | S j => match nth_error h j with Some p => e_after p | None => Terminate end end)
  /\ last (map e_after h) (c_state c) = c_state c'.
Proof.
  revert c h. induction xs as [|[t a] xs IH]; intros c h E; cbn in E.
  - inversion E; subst. split; [intros [|] ? H; discriminate|reflexivity].
  - destruct (cstep c t a) as [c1 h1] eqn:E1. destruct (crun c1 xs) as [c2 h2] eqn:E2. inversion E; subst; clear E.
    destruct (IH _ _ E2) as [IH1 IH2].
    assert (H1 : (h1 = [] /\ c_state c1 = c_state c) \/ exists e, h1 = [e] /\ e_before e = c_state c /\ e_after e = c_state c1).
    { unfold SpSpec.cstep in E1. destruct a as [ready w|m].
      - destruct (poll t ready c) as [[e c3]|] eqn:P; [|inversion E1; subst; auto].
        destruct (handle_event t my_open w e c3) as [[c4 ms] ok]. inversion E1; subst. right. eexists. split; [reflexivity|]. split; reflexivity.
      - inversion E1; subst. right. eexists. split; [reflexivity|]. split; [reflexivity|]. cbn. symmetry. apply state_sent. }
    destruct H1 as [[-> H1]|(e & -> & Hb & Ha)]; cbn [app].
    + split; [|rewrite <- H1; exact IH2]. intros i e He. specialize (IH1 i e He). destruct i; congruence.
    + split.
      * intros [|i] x Hx; cbn in Hx; [injection Hx as <-; exact Hb|].
        specialize (IH1 i x Hx). destruct i as [|j]; cbn [nth_error]; [rewrite Ha; exact IH1|exact IH1].
      * cbn [map]. rewrite <- IH2, <- Ha. change (e_after e :: map e_after h2) with ([] ++ e_after e :: map e_after h2). apply last_app_cons.
Qed.

(* ---- C27 ---- *)
Definition held (cf : cconf) (c : conn) (h : list entry) : Prop :=
  c_conf c = cf /\
  (up (c_state c) -> exists o, last_open h = Some o /\
    (negotiated cf o <> 0 ->
     exists t, last_time refreshes h = Some t /\ c_hold c = Some (start_timer (secs (negotiated cf o)) t))).

Lemma secs_zero n : (secs n =? 0) = (n =? 0).
Proof. unfold secs. destruct (N.eqb_spec n 0) as [->|H]; [reflexivity|]. apply N.eqb_neq. lia. Qed.

Lemma negotiate_read o c cf : c_conf c = cf ->
  c_hold_dur (negotiate third (read_open o (with_delay None c))) = if cf_hold cf =? 0 then 0 else secs (negotiated cf o).
Proof. intros <-. unfold negotiate. cbn. destruct (_ =? 0); reflexivity. Qed.
Lemma hold_read o c cf now : c_conf c = cf -> negotiated cf o <> 0 ->
  c_hold (start_negotiated jit now (negotiate third (read_open o (with_delay None c)))) = Some (start_timer (secs (negotiated cf o)) now).
Proof.
  intros Hc Hn. unfold start_negotiated.
  assert (Hz : (cf_hold cf =? 0) = false) by (apply N.eqb_neq; unfold negotiated in Hn; lia).
  set (x := negotiate third _). assert (Hx : c_hold_dur x = secs (negotiated cf o)).
  { subst x. rewrite (negotiate_read o c cf Hc), Hz. reflexivity. }
  destruct (c_ka_dur x =? 0); cbn; rewrite Hx, secs_zero;
    (destruct (N.eqb_spec (negotiated cf o) 0); [contradiction|]); reflexivity.
Qed.

(* the hold timer after an event that leaves the connection up *)
Lemma handle_hold now w e c c' ms ok :
  handle_event now my_open w e c = (c', ms, ok) -> up (c_state c') ->
  match e with
  | EvOpen o | EvOpenDelay o => ~ up (c_state c) /\
     c_hold c' = c_hold (start_negotiated jit now (negotiate third (read_open o (with_delay None c))))
  | EvKeepalive => up (c_state c) /\ c_hold c' = restart now (c_hold c)
  | EvKeep | EvNotifErr | EvUpdate _ _ | EvRefresh _ => up (c_state c) /\ c_hold c' = c_hold c
  | _ => False
  end.
Proof.
  unfold up, SpModel.handle_event, on_connected, on_open_sent, on_open_confirm, on_established, notify, stop.
  destruct (c_state c) eqn:S, e; cbn -[negotiate start_negotiated start_hold read_open];
    repeat match goal with |- context [if ?b then _ else _] => destruct b end;
    intros E; inversion E; subst; cbn -[negotiate start_negotiated start_hold read_open];
    rewrite ?state_start_negotiated, ?state_negotiate, ?state_start_hold; cbn -[negotiate start_negotiated start_hold read_open]; rewrite ?S;
    intros H; try (now (destruct H as [H|H]; discriminate H)); auto.
  all: split; [intros [G|G]; discriminate|reflexivity].
Qed.
Lemma hold_with_peer_id i now x c :
  c_hold (start_negotiated jit now (negotiate third (read_open x (with_delay None (with_peer_id i c))))) =
  c_hold (start_negotiated jit now (negotiate third (read_open x (with_delay None c)))).
Proof. reflexivity. Qed.

Lemma poll_message now i c e c1 : poll now i c = Some (e, c1) ->
  match e with
  | EvHold => c1 = with_hold (ticked (c_hold c)) c
  | EvKeep => c1 = with_ka (ticked (c_ka c)) c
  | EvDelay => c1 = with_delay None c
  | EvOpen o | EvOpenDelay o => c1 = with_peer_id (o_id o) c /\ from_stream e i = Some (MOpen o)
  | EvKeepalive => c1 = c /\ from_stream e i = Some MKeepAlive
  | EvUpdate u t => c1 = c /\ from_stream e i = Some (MUpdate u)
  | EvRefresh r => c1 = c /\ from_stream e i = Some (MRouteRefresh r)
  | EvNotifErr => c1 = c /\ from_stream e i = None
  | EvNotif n => c1 = c /\ from_stream e i = Some (MNotification n)
  | _ => True
  end.
Proof.
  unfold poll. destruct (due now (c_ka c)); [intros E; inversion E; subst; reflexivity|].
  destruct (due now (c_delay c)); [intros E; inversion E; subst; reflexivity|].
  destruct (due now (c_hold c)); [intros E; inversion E; subst; reflexivity|].
  destruct i as [i|]; [|discriminate]. intros E. injection E as E.
  destruct i as [m errs|x| | |]; cbn in E; [destruct m as [o|u|n| |r]|..]; inversion E; subst; clear E; try exact I.
  - unfold open_event. destruct (c_peer_asn c) as [a|]; [destruct (a =? my_asn4 o); [|exact I]|];
      destruct (c_delay c); split; reflexivity.
  - unfold update_event.
    repeat match goal with |- context [if ?b then _ else _] => destruct b end; try exact I. split; reflexivity.
  - destruct (_ && _); [exact I|split; reflexivity].
  - split; reflexivity.
  - split; reflexivity.
  - destruct x as [| | | | |[]]; cbn; try exact I. split; reflexivity.
Qed.

Lemma held_step cf c h now a c' h' : held cf c h -> cstep c now a = (c', h') -> held cf c' (h ++ h').
Proof.
  intros [Hc Hh] E. unfold SpSpec.cstep in E. destruct a as [ready w|m].
  2: { inversion E; subst. split; [apply conf_sent|]. rewrite state_sent. intros Hu. destruct (Hh Hu) as (o & Ho & Ht).
       exists o. rewrite last_open_snoc, last_time_snoc. cbn. split; [exact Ho|].
       intros Hn. destruct (Ht Hn) as (t & T & G). exists t. split; [exact T|]. destruct m; exact G. }
  destruct (poll now ready c) as [[e c1]|] eqn:P; [|inversion E; subst; rewrite app_nil_r; split; [reflexivity|assumption]].
  destruct (poll_state _ _ _ _ _ P) as [Ps Pc]. pose proof (poll_message _ _ _ _ _ P) as Pm.
  destruct (handle_event now my_open w e c1) as [[c2 ms] ok] eqn:Eh. inversion E; subst; clear E.
  split; [rewrite (handle_conf _ _ _ _ _ _ _ _ Eh); congruence|].
  intros Hu. pose proof (handle_hold _ _ _ _ _ _ _ Eh Hu) as Ht.
  rewrite last_open_snoc, last_time_snoc. unfold is_open, refreshes. cbn [e_recv e_time].
  destruct e; try (now destruct Ht).
  - (* keepalive timer *) destruct Ht as [Hu' Ht]. rewrite Ps in Hu'. destruct (Hh Hu') as (o & Ho & Hx). exists o. cbn. split; [exact Ho|].
    intros Hn. destruct (Hx Hn) as (t & T & G). exists t. split; [exact T|]. rewrite Ht, Pm. exact G.
  - destruct Ht as [_ Ht]. destruct Pm as [-> Pm]. rewrite Pm. exists o. split; [reflexivity|].
    intros Hn. exists now. split; [reflexivity|]. rewrite Ht. apply hold_read; [exact Pc|exact Hn].
  - destruct Ht as [_ Ht]. destruct Pm as [-> Pm]. rewrite Pm. exists o. split; [reflexivity|].
    intros Hn. exists now. split; [reflexivity|]. rewrite Ht. apply hold_read; [exact Pc|exact Hn].
  - destruct Ht as [Hu' Ht]. destruct Pm as [-> Pm]. rewrite Pm. destruct (Hh Hu') as (o & Ho & Hx). exists o. split; [exact Ho|].
    intros Hn. destruct (Hx Hn) as (t & T & G). exists t. split; [exact T|]. rewrite Ht. exact G.
  - destruct Ht as [Hu' Ht]. destruct Pm as [-> Pm]. rewrite Pm. destruct (Hh Hu') as (o & Ho & Hx). exists o. split; [exact Ho|].
    intros Hn. exists now. split; [reflexivity|]. destruct (Hx Hn) as (t & T & G). rewrite Ht, G. reflexivity.
  - destruct Ht as [Hu' Ht]. destruct Pm as [-> Pm]. rewrite Pm. destruct (Hh Hu') as (o & Ho & Hx). exists o. split; [exact Ho|].
    intros Hn. destruct (Hx Hn) as (x & T & G). exists x. split; [exact T|]. rewrite Ht. exact G.
  - destruct Ht as [Hu' Ht]. destruct Pm as [-> Pm]. rewrite Pm. destruct (Hh Hu') as (o & Ho & Hx). exists o. split; [exact Ho|].
    intros Hn. destruct (Hx Hn) as (x & T & G). exists x. split; [exact T|]. rewrite Ht. exact G.
Qed.
Lemma held_life pa ty cf t0 w xs c h : life pa ty cf t0 w xs = (c, h) -> held cf c h.
Proof.
  unfold SpSpec.life. destruct (handle_event t0 my_open w _ _) as [[c1 ms] ok] eqn:E1.
  destruct (crun c1 xs) as [c2 h2] eqn:E2. intros E. inversion E; subst; clear E.
  match goal with |- held _ _ (?e :: h2) => change (e :: h2) with ([e] ++ h2) end.
  refine (crun_inv (held cf) (fun _ => True) _ xs c1 _ c h2 _ _ E2).
  - intros; eapply held_step; eauto.
  - apply Forall_forall; auto.
  - split; [exact (handle_conf _ _ _ _ _ _ _ _ E1)|].
    intros Hu. pose proof (handle_hold _ _ _ _ _ _ _ E1 Hu) as H. destruct ty; destruct H.
Qed.

(* ---- keepalives ---- *)
Definition kept (cf : cconf) (c : conn) (h : list entry) : Prop :=
  c_conf c = cf /\
  (up (c_state c) -> exists o, last_open h = Some o /\
    (negotiated cf o <> 0 ->
     exists t, last_time sends_alive h = Some t /\ c_ka c = Some (start_timer (jit (third (negotiated cf o))) t))).
Lemma ka_read o c cf now : (forall n, n <> 0 -> third n <> 0) -> c_conf c = cf -> negotiated cf o <> 0 ->
  c_ka (start_negotiated jit now (negotiate third (read_open o (with_delay None c)))) = Some (start_timer (jit (third (negotiated cf o))) now).
Proof.
  intros H3 Hc Hn. unfold start_negotiated.
  assert (Hz : (cf_hold cf =? 0) = false) by (apply N.eqb_neq; unfold negotiated in Hn; lia).
  set (x := negotiate third _). assert (Hx : c_ka_dur x = third (negotiated cf o)).
  { subst x. unfold negotiate. cbn. rewrite Hc, Hz. reflexivity. }
  rewrite Hx. destruct (N.eqb_spec (third (negotiated cf o)) 0) as [E|_]; [elim (H3 _ Hn E)|].
  cbn. destruct (c_hold_dur x =? 0); reflexivity.
Qed.
Lemma handle_ka now e c c' ms ok :
  handle_event now my_open true e c = (c', ms, ok) -> up (c_state c') ->
  match e with
  | EvOpen o | EvOpenDelay o => ~ up (c_state c) /\ In MKeepAlive ms /\
     c_ka c' = restart now (c_ka (start_negotiated jit now (negotiate third (read_open o (with_delay None c)))))
  | EvKeep => up (c_state c) /\ ms = [MKeepAlive] /\ c_ka c' = restart now (c_ka c)
  | EvKeepalive | EvNotifErr | EvUpdate _ _ | EvRefresh _ => up (c_state c) /\ ms = [] /\ c_ka c' = c_ka c
  | _ => False
  end.
Proof.
  unfold up, SpModel.handle_event, on_connected, on_open_sent, on_open_confirm, on_established, notify, stop.
  destruct (c_state c) eqn:S, e; cbn -[negotiate start_negotiated start_hold read_open];
    repeat match goal with |- context [if ?b then _ else _] => destruct b end;
    intros E; inversion E; subst; cbn -[negotiate start_negotiated start_hold read_open];
    rewrite ?state_start_negotiated, ?state_negotiate, ?state_start_hold; cbn -[negotiate start_negotiated start_hold read_open]; rewrite ?S;
    intros H; try (now (destruct H as [H|H]; discriminate H)); auto.
  all: split; [intros [G|G]; discriminate|split; [auto|reflexivity]].
Qed.
Lemma sends_alive_in now e rv ms b a : In MKeepAlive ms -> sends_alive (mkE now e rv ms b a) = true.
Proof. intros H. unfold sends_alive. cbn. apply existsb_exists. exists MKeepAlive. auto. Qed.
Lemma kept_step cf c h now a c' h' : (forall n, n <> 0 -> third n <> 0) -> writable (now, a) ->
  kept cf c h -> cstep c now a = (c', h') -> kept cf c' (h ++ h').
Proof.
  intros H3 Hw [Hc Hh] E. unfold SpSpec.cstep in E. destruct a as [ready w|m].
  2: { inversion E; subst. split; [apply conf_sent|]. rewrite state_sent. intros Hu. destruct (Hh Hu) as (o & Ho & Ht).
       exists o. rewrite last_open_snoc, last_time_snoc. cbn. split; [exact Ho|].
       intros Hn. destruct (Ht Hn) as (t & T & G). destruct m; cbn; rewrite ?G; eauto. }
  cbn in Hw. subst w.
  destruct (poll now ready c) as [[e c1]|] eqn:P; [|inversion E; subst; rewrite app_nil_r; split; [reflexivity|assumption]].
  destruct (poll_state _ _ _ _ _ P) as [Ps Pc]. pose proof (poll_message _ _ _ _ _ P) as Pm.
  destruct (handle_event now my_open true e c1) as [[c2 ms] ok] eqn:Eh. inversion E; subst; clear E.
  split; [rewrite (handle_conf _ _ _ _ _ _ _ _ Eh); congruence|].
  intros Hu. pose proof (handle_ka _ _ _ _ _ _ Eh Hu) as Ht.
  rewrite last_open_snoc, last_time_snoc. unfold is_open. cbn [e_recv e_time].
  destruct e; try (now destruct Ht).
  - destruct Ht as (Hu' & -> & Ht). rewrite Ps in Hu'. destruct (Hh Hu') as (o & Ho & Hx). exists o. cbn. split; [exact Ho|].
    intros Hn. destruct (Hx Hn) as (t & T & G). exists now. split; [reflexivity|]. rewrite Ht, Pm. cbn. rewrite G. reflexivity.
  - destruct Ht as (_ & Hm & Ht). destruct Pm as [-> Pm]. rewrite Pm, (sends_alive_in _ _ _ _ _ _ Hm). exists o. split; [reflexivity|].
    intros Hn. exists now. split; [reflexivity|]. rewrite Ht, (ka_read _ _ (c_conf c)); auto.
  - destruct Ht as (_ & Hm & Ht). destruct Pm as [-> Pm]. rewrite Pm, (sends_alive_in _ _ _ _ _ _ Hm). exists o. split; [reflexivity|].
    intros Hn. exists now. split; [reflexivity|]. rewrite Ht, (ka_read _ _ (c_conf c)); auto.
  - destruct Ht as (Hu' & -> & Ht). destruct Pm as [-> Pm]. rewrite Pm. cbn. rewrite Ht. exact (Hh Hu').
  - destruct Ht as (Hu' & -> & Ht). destruct Pm as [-> Pm]. rewrite Pm. cbn. rewrite Ht. exact (Hh Hu').
  - destruct Ht as (Hu' & -> & Ht). destruct Pm as [-> Pm]. rewrite Pm. cbn. rewrite Ht. exact (Hh Hu').
  - destruct Ht as (Hu' & -> & Ht). destruct Pm as [-> Pm]. rewrite Pm. cbn. rewrite Ht. exact (Hh Hu').
Qed.
Lemma kept_life pa ty cf t0 xs c h : (forall n, n <> 0 -> third n <> 0) -> Forall writable xs ->
  life pa ty cf t0 true xs = (c, h) -> kept cf c h.
Proof.
  intros H3 HA. unfold SpSpec.life. destruct (handle_event t0 my_open true _ _) as [[c1 ms] ok] eqn:E1.
  destruct (crun c1 xs) as [c2 h2] eqn:E2. intros E. inversion E; subst; clear E.
  match goal with |- kept _ _ (?e :: h2) => change (e :: h2) with ([e] ++ h2) end.
  refine (crun_inv (kept cf) writable _ xs c1 _ c h2 HA _ E2).
  - intros; eapply kept_step; eauto.
  - split; [exact (handle_conf _ _ _ _ _ _ _ _ E1)|].
    intros Hu. pose proof (handle_ka _ _ _ _ _ _ E1 Hu) as H. destruct ty; destruct H.
Qed.
End Conn.

(* ---- UPDATE ---- *)
Fixpoint scanned (o p : bool) (attrs : list pattr) : list pattr :=
  match attrs with
  | [] => []
  | a :: r => if o && p then [] else a :: scanned (o || origin (pa_val a)) (p || any_path (pa_val a)) r
  end.
Definition sees (f : attr_value -> bool) (l : list pattr) : bool := existsb (fun a => f (pa_val a)) l.
Definition counts (f : attr_value -> bool) (l : list pattr) : N := N.of_nat (length (filter (fun a => f (pa_val a)) l)).
Lemma has_sees f l : has f l <-> sees f l = true.
Proof. unfold has, sees. rewrite existsb_exists. reflexivity. Qed.
Lemma counts_cons f a l : counts f (a :: l) = (if f (pa_val a) then 1 else 0) + counts f l.
Proof. unfold counts. cbn [filter]. destruct (f (pa_val a)); cbn [length]; lia. Qed.
Lemma scan_spec attrs : forall s,
  let l := scanned (s_origin s) (s_aspath s) attrs in
  scan_attrs s attrs = mkScan (s_origin s || sees origin l) (s_aspath s || sees any_path l) (s_nexthop s || sees next_hop l)
                              (s_reach s + counts mp_reach l) (s_unreach s + counts mp_unreach l).
Proof.
  induction attrs as [|a r IH]; intros s l; subst l; cbn [scan_attrs scanned].
  - cbn. rewrite !orb_false_r. unfold counts. cbn. rewrite !N.add_0_r. destruct s; reflexivity.
  - destruct (s_origin s && s_aspath s).
    + cbn. rewrite !orb_false_r. unfold counts. cbn. rewrite !N.add_0_r. destruct s; reflexivity.
    + rewrite IH. destruct s as [o p n x y]. unfold any_path.
      destruct (pa_val a) eqn:Ea; cbn [s_origin s_aspath s_nexthop s_reach s_unreach origin as_path as4_path orb sees existsb next_hop mp_reach mp_unreach];
        rewrite !counts_cons, Ea; cbn [origin as_path as4_path orb sees existsb next_hop mp_reach mp_unreach pa_val]; rewrite ?Ea;
        cbn [origin as_path as4_path orb next_hop mp_reach mp_unreach]; rewrite ?orb_false_r, ?orb_true_r, ?orb_true_l, ?N.add_0_l, ?N.add_assoc;
        try reflexivity; unfold sees; cbn; rewrite ?Ea; cbn; rewrite ?orb_true_r, ?orb_false_r; reflexivity.
Qed.
Lemma scanned_flags attrs : forall o p,
  (o || sees origin (scanned o p attrs) = o || sees origin attrs) /\
  (p || sees any_path (scanned o p attrs) = p || sees any_path attrs).
Proof.
  induction attrs as [|a r IH]; intros o p; cbn [scanned]; [split; reflexivity|].
  destruct o, p; cbn [andb]; [split; reflexivity|..];
    unfold sees in *; cbn [existsb orb] in *;
    match goal with |- context [scanned ?x ?y r] => destruct (IH x y) as [J1 J2] end; cbn [orb] in *; try rewrite ?orb_assoc in *; split; auto.
Qed.

Lemma scanned_sees f attrs : forall o p,
  sees f (scanned o p attrs) = true <->
  exists l a r, attrs = l ++ a :: r /\ f (pa_val a) = true /\ (o || sees origin l) && (p || sees any_path l) = false.
Proof.
  induction attrs as [|x attrs IH]; intros o p; cbn [scanned].
  - split; [discriminate|]. intros ([|] & a & r & E & _); discriminate.
  - destruct (o && p) eqn:D.
    + split; [discriminate|]. intros (l & a & r & _ & _ & H). apply andb_true_iff in D as [-> ->]. discriminate.
    + change (sees f (x :: ?l)) with (f (pa_val x) || sees f l). unfold sees at 1. cbn [existsb]. fold (sees f (scanned (o || origin (pa_val x)) (p || any_path (pa_val x)) attrs)).
      rewrite orb_true_iff, IH. split.
      * intros [H|(l & a & r & E & H & G)].
        -- exists [], x, attrs. cbn. rewrite !orb_false_r. auto.
        -- exists (x :: l), a, r. rewrite E. unfold sees in *. cbn [existsb app]. rewrite !orb_assoc. auto.
      * intros ([|y l] & a & r & E & H & G); cbn in E; inversion E; subst.
        -- left. exact H.
        -- right. exists l, a, r. unfold sees in *. cbn [existsb] in G. rewrite !orb_assoc in G. auto.
Qed.
Lemma counts_zero f l : sees f l = false -> counts f l = 0.
Proof.
  unfold sees, counts. induction l as [|a l IH]; cbn; [reflexivity|]. intros H. apply orb_false_iff in H as [-> H]. auto.
Qed.
Lemma scanned_incl f attrs : forall o p, sees f attrs = false -> sees f (scanned o p attrs) = false.
Proof.
  unfold sees. induction attrs as [|a r IH]; intros o p; cbn [existsb scanned]; [auto|]. intros H.
  apply orb_false_iff in H as [H1 H2]. destruct (o && p); [reflexivity|]. cbn. rewrite H1. cbn. auto.
Qed.
Lemma no_has f l : ~ has f l -> sees f l = false.
Proof. intros H. destruct (sees f l) eqn:E; [|reflexivity]. elim H. apply has_sees, E. Qed.

Definition top (u : update_msg) : scan := scan_attrs (mkScan false false false 0 0) (u_attrs u).
Lemma top_origin u : s_origin (top u) = sees origin (u_attrs u).
Proof. unfold top. rewrite scan_spec. cbn. apply (scanned_flags (u_attrs u) false false). Qed.
Lemma top_path u : s_aspath (top u) = sees any_path (u_attrs u).
Proof. unfold top. rewrite scan_spec. cbn. apply (scanned_flags (u_attrs u) false false). Qed.

Lemma update_event_spec u errs : update_event u errs =
  let s := top u in
  if negb (end_of_rib u) && negb (sees origin (u_attrs u)) then EvUpdateErr (mkNotif 3 3 [1])
  else if negb (end_of_rib u) && negb (sees any_path (u_attrs u)) then EvUpdateErr (mkNotif 3 3 [2])
  else if negb (end_of_rib u) && (s_reach s =? 0) && (s_unreach s =? 0) && negb (s_nexthop s) && negb (is_nil (u_nlri u))
  then EvUpdateErr (mkNotif 3 3 [3])
  else if (1 <? s_reach s) || (1 <? s_unreach s) then EvUpdateErr (mkNotif 3 1 [])
  else EvUpdate u (update_treatment errs).
Proof. unfold update_event. fold (top u). cbv zeta. rewrite top_origin, top_path. reflexivity. Qed.

Lemma accepted_iff u errs : u_nlri u <> [] -> has origin (u_attrs u) -> has any_path (u_attrs u) ->
  ~ has mp_reach (u_attrs u) -> ~ has mp_unreach (u_attrs u) ->
  (accepted u errs <-> exists l a r, u_attrs u = l ++ a :: r /\ next_hop (pa_val a) = true /\ ~ (has origin l /\ has any_path l)).
Proof.
  intros Hn Ho Hp Hr Hu. apply has_sees in Ho, Hp. apply no_has in Hr, Hu.
  assert (Hz : is_nil (u_nlri u) = false) by (destruct (u_nlri u); [contradiction|reflexivity]).
  assert (He : end_of_rib u = false) by (unfold end_of_rib; rewrite Hz; reflexivity).
  unfold accepted. rewrite update_event_spec. cbv zeta. rewrite He, Ho, Hp, Hz. cbn [negb andb].
  assert (Hs : s_reach (top u) = 0 /\ s_unreach (top u) = 0 /\ s_nexthop (top u) = sees next_hop (scanned false false (u_attrs u))).
  { unfold top. rewrite scan_spec. cbn. repeat split; apply counts_zero, scanned_incl; assumption. }
  destruct Hs as (-> & -> & ->). cbn [N.eqb andb orb negb N.ltb N.compare].
  assert (Hx : forall l, ~ (has origin l /\ has any_path l) <-> (false || sees origin l) && (false || sees any_path l) = false).
  { intros l. cbn. rewrite !has_sees. destruct (sees origin l), (sees any_path l); cbn; intuition congruence. }
  assert (Hc : sees next_hop (scanned false false (u_attrs u)) = true <->
     exists l a r, u_attrs u = l ++ a :: r /\ next_hop (pa_val a) = true /\ ~ (has origin l /\ has any_path l)).
  { rewrite scanned_sees. split; intros (l & a & r & E & F & G); exists l, a, r; (split; [exact E|split; [exact F|apply Hx, G]]). }
  rewrite <- Hc. destruct (sees next_hop _); cbn.
  - split; [reflexivity|]. intros _. eexists. reflexivity.
  - split; [intros (t & H); discriminate|discriminate].
Qed.
Lemma missing_rejected u errs : end_of_rib u = false -> (~ has origin (u_attrs u) \/ ~ has any_path (u_attrs u)) -> ~ accepted u errs.
Proof.
  intros He H (t & Ht). rewrite update_event_spec in Ht. cbv zeta in Ht. rewrite He in Ht. cbn [negb andb] in Ht.
  destruct H as [H|H]; apply no_has in H; rewrite H in Ht; cbn [negb] in Ht; [discriminate|].
  destruct (negb (sees origin (u_attrs u))); discriminate.
Qed.
Lemma withdraw_rejected u errs : u_withdrawn u <> [] -> u_attrs u = [] -> u_nlri u = [] ->
  update_event u errs = EvUpdateErr (mkNotif 3 3 [1]).
Proof.
  intros Hw Ha Hn. rewrite update_event_spec. cbv zeta. rewrite Ha. unfold end_of_rib. rewrite Hn. cbn [is_nil negb orb].
  destruct (u_withdrawn u); [contradiction|]. reflexivity.
Qed.

(* ---- treatment ---- *)
Lemma milder_rank a b : milder a b <-> t_rank a <= t_rank b.
Proof.
  split.
  - intros []; cbn; try lia. all: destruct t; cbn; lia.
  - destruct a, b; cbn; intros H; try constructor; lia.
Qed.
Lemma asks_rank e : t_rank (asks e) = match err_treatment e with Some t => t_rank t | None => 0 end.
Proof. destruct e as [| | | | | | | | | | | | | |m|m| | | | | | | |]; try reflexivity; destruct m; reflexivity. Qed.
Lemma raise_rank t e : t_rank (raise t e) = N.max (t_rank t) (t_rank (asks e)).
Proof.
  unfold raise. rewrite asks_rank. destruct (err_treatment e) as [t'|]; [|lia].
  destruct (N.ltb_spec (t_rank t) (t_rank t')); lia.
Qed.
Lemma fold_rank es : forall t, t_rank (fold_left raise es t) = fold_left (fun r e => N.max r (t_rank (asks e))) es (t_rank t).
Proof. induction es as [|e es IH]; intros t; cbn; [reflexivity|]. rewrite IH, raise_rank. reflexivity. Qed.
Lemma fold_max_ge (es : list upd_err) : forall r, r <= fold_left (fun r e => N.max r (t_rank (asks e))) es r.
Proof. induction es as [|e es IH]; intros r; cbn; [lia|]. specialize (IH (N.max r (t_rank (asks e)))). lia. Qed.
Lemma fold_max_in (es : list upd_err) : forall r e, In e es -> t_rank (asks e) <= fold_left (fun r e => N.max r (t_rank (asks e))) es r.
Proof.
  induction es as [|x es IH]; intros r e H; [destruct H|]. destruct H as [->|H]; cbn; [|apply IH, H].
  pose proof (fold_max_ge es (N.max r (t_rank (asks e)))). lia.
Qed.
Lemma treatment_most_severe es e : In e es -> milder (asks e) (update_treatment es).
Proof. intros H. apply milder_rank. unfold update_treatment. rewrite fold_rank. apply fold_max_in, H. Qed.
Lemma raise_from t e : bgpls_nlri e = false -> raise t e = t \/ raise t e = asks e.
Proof.
  unfold raise. intros H. destruct (err_treatment e) as [t'|] eqn:E; [|now left].
  destruct (_ <? _); [right|now left].
  destruct e as [| | | | | | | | | | | | | |m|m| | | | | | | |]; cbn in E; try discriminate; inversion E; subst; try reflexivity;
    destruct m as [| | |a|a|a]; try reflexivity; destruct a; try reflexivity; discriminate.
Qed.
Lemma fold_from es : forall t, Forall (fun e => bgpls_nlri e = false) es ->
  fold_left raise es t = t \/ exists e, In e es /\ fold_left raise es t = asks e.
Proof.
  induction es as [|e es IH]; intros t H; cbn; [now left|]. inversion H as [|? ? He Hes]; subst.
  destruct (IH (raise t e) Hes) as [->|(x & Hx & ->)]; [|right; exists x; auto].
  destruct (raise_from t e He) as [->| ->]; [now left|right; exists e; auto].
Qed.
Lemma rank_perm es es' : Permutation es es' -> forall r,
  fold_left (fun r e => N.max r (t_rank (asks e))) es r = fold_left (fun r e => N.max r (t_rank (asks e))) es' r.
Proof.
  induction 1 as [|x l l' _ IH|x y l|l l' l'' _ IH1 _ IH2]; intros r; cbn; [reflexivity|apply IH| |rewrite IH1; apply IH2].
  f_equal. lia.
Qed.
Lemma treatment_perm_rank es es' : Permutation es es' -> t_rank (update_treatment es) = t_rank (update_treatment es').
Proof. intros H. unfold update_treatment. rewrite !fold_rank. apply rank_perm, H. Qed.
Lemma rank_inj a b : t_rank a = t_rank b -> a = b \/ exists x y z w, a = TResetFamily x y /\ b = TResetFamily z w.
Proof. destruct a, b; cbn; intros H; try lia; auto. right. repeat eexists. Qed.

(* ---- hold time zero ---- *)
Section Zero.
Context (third jit : N -> N) (my_open : open_msg).
Definition untimed (cf : cconf) (c : conn) (h : list entry) : Prop :=
  c_conf c = cf /\
  (c_state c = Connected \/ c_state c = OpenSent -> c_hold c = None) /\
  (up (c_state c) -> exists o, last_open h = Some o /\ (negotiated cf o = 0 -> c_hold c = None)).
Lemma hold_zero o c cf now : c_conf c = cf -> negotiated cf o = 0 ->
  c_hold (start_negotiated jit now (negotiate third (read_open o (with_delay None c)))) = c_hold c.
Proof.
  intros Hc Hn. unfold start_negotiated. set (x := negotiate third _).
  assert (Hx : c_hold_dur x = 0 /\ c_hold x = c_hold c).
  { subst x. rewrite (negotiate_read third o c cf Hc). split.
    - destruct (cf_hold cf =? 0); [reflexivity|]. unfold negotiated in Hn |- *. rewrite Hn. reflexivity.
    - unfold negotiate. destruct (_ =? 0); reflexivity. }
  destruct Hx as [H1 H2]. destruct (c_ka_dur x =? 0); cbn; rewrite H1; cbn; exact H2.
Qed.
Lemma handle_low now e c c' ms ok :
  cf_large (c_conf c) = 0 -> handle_event third jit now my_open true e c = (c', ms, ok) ->
  c_state c' = Connected \/ c_state c' = OpenSent -> (c_state c = Connected \/ c_state c = OpenSent) /\ c_hold c' = c_hold c.
Proof.
  intros HL. unfold handle_event, on_connected, on_open_sent, on_open_confirm, on_established, notify, stop.
  assert (HS : start_hold now c = c) by (unfold start_hold; rewrite HL; reflexivity). rewrite HS.
  destruct (c_state c) eqn:S, e; cbn -[negotiate start_negotiated read_open];
    repeat match goal with |- context [if ?b then _ else _] => destruct b end;
    intros E; inversion E; subst; cbn -[negotiate start_negotiated read_open];
    rewrite ?state_start_negotiated, ?state_negotiate; cbn -[negotiate start_negotiated read_open]; rewrite ?S;
    intros H; try (now (destruct H as [H|H]; discriminate H)); auto.
Qed.
Lemma untimed_step cf c h now a c' h' : cf_large cf = 0 -> writable (now, a) ->
  untimed cf c h -> cstep third jit my_open c now a = (c', h') -> untimed cf c' (h ++ h').
Proof.
  intros HL Hw (Hc & Hl & Hh) E. unfold cstep in E. destruct a as [ready w|m].
  2: { inversion E; subst. split; [apply conf_sent|]. rewrite state_sent.
       assert (HH : c_hold (sent now m c) = c_hold c) by (destruct m; reflexivity). rewrite HH.
       split; [exact Hl|]. intros Hu. rewrite last_open_snoc. cbn. exact (Hh Hu). }
  cbn in Hw. subst w.
  destruct (poll now ready c) as [[e c1]|] eqn:P; [|inversion E; subst; rewrite app_nil_r; split; [reflexivity|auto]].
  destruct (poll_state _ _ _ _ _ P) as [Ps Pc]. pose proof (poll_message _ _ _ _ _ P) as Pm.
  destruct (handle_event third jit now my_open true e c1) as [[c2 ms] ok] eqn:Eh. inversion E; subst; clear E.
  split; [rewrite (handle_conf _ _ _ _ _ _ _ _ _ _ Eh); congruence|]. split.
  - intros Hs. assert (HL1 : cf_large (c_conf c1) = 0) by (rewrite Pc; exact HL).
    destruct (handle_low _ _ _ _ _ _ HL1 Eh Hs) as [Hs1 ->]. rewrite Ps in Hs1. specialize (Hl Hs1).
    clear -P Hl. unfold poll in P.
    destruct (due now (c_ka c)); [inversion P; subst; exact Hl|].
    destruct (due now (c_delay c)); [inversion P; subst; exact Hl|].
    destruct (due now (c_hold c)); [inversion P; subst; cbn; rewrite Hl; reflexivity|].
    destruct ready as [i|]; [|discriminate]. injection P as P.
    destruct i as [m errs|x| | |]; cbn in P; [destruct m|..]; inversion P; subst; exact Hl.
  - intros Hu. pose proof (handle_hold third jit my_open _ _ _ _ _ _ _ Eh Hu) as Ht.
    rewrite last_open_snoc. unfold is_open. cbn [e_recv].
    destruct e; try (now destruct Ht).
    + destruct Ht as [Hu' ->]. rewrite Pm in *. exact (Hh Hu').
    + destruct Ht as [Hn Ht]. destruct Pm as [-> Pm]. rewrite Pm. exists o. split; [reflexivity|]. intros Hz. rewrite Ht.
      rewrite (hold_zero o _ (c_conf c)) by auto. cbn. apply Hl. cbn in Hn. unfold up in Hn.
      pose proof (handle_into _ _ _ _ _ _ _ _ _ _ Eh) as Hi. destruct Hu as [Hu|Hu]; rewrite Hu in Hi; cbn in Hi.
      * destruct Hi as [[_ [Hi|Hi]]|(x & [(_ & Hi & _)|(_ & Hi & _)])]; try discriminate; auto.
      * destruct Hi as [Hi|[Hi _]]; elim Hn; auto.
    + destruct Ht as [Hn Ht]. destruct Pm as [-> Pm]. rewrite Pm. exists o. split; [reflexivity|]. intros Hz. rewrite Ht.
      rewrite (hold_zero o _ (c_conf c)) by auto. cbn. apply Hl. cbn in Hn. unfold up in Hn.
      pose proof (handle_into _ _ _ _ _ _ _ _ _ _ Eh) as Hi. destruct Hu as [Hu|Hu]; rewrite Hu in Hi; cbn in Hi.
      * destruct Hi as [[_ [Hi|Hi]]|(x & [(_ & Hi & _)|(_ & Hi & _)])]; try discriminate; auto.
      * destruct Hi as [Hi|[Hi _]]; elim Hn; auto.
    + destruct Ht as [Hu' ->]. destruct Pm as [-> Pm]. rewrite Pm. exact (Hh Hu').
    + destruct Ht as [Hu' ->]. destruct Pm as [-> Pm]. rewrite Pm. destruct (Hh Hu') as (o & Ho & Hz). exists o. split; [exact Ho|]. intros Hn. rewrite (Hz Hn). reflexivity.
    + destruct Ht as [Hu' ->]. destruct Pm as [-> Pm]. rewrite Pm. exact (Hh Hu').
    + destruct Ht as [Hu' ->]. destruct Pm as [-> Pm]. rewrite Pm. exact (Hh Hu').
Qed.
Lemma untimed_life pa ty cf t0 xs c h : cf_large cf = 0 -> Forall writable xs ->
  life third jit my_open pa ty cf t0 true xs = (c, h) -> untimed cf c h.
Proof.
  intros HL HA. unfold life. destruct (handle_event third jit t0 my_open true _ _) as [[c1 ms] ok] eqn:E1.
  destruct (crun third jit my_open c1 xs) as [c2 h2] eqn:E2. intros E. inversion E; subst; clear E.
  match goal with |- untimed _ _ (?e :: h2) => change (e :: h2) with ([e] ++ h2) end.
  refine (crun_inv third jit my_open (untimed cf) writable _ xs c1 _ c h2 HA _ E2).
  - intros; eapply untimed_step; eauto.
  - split; [exact (handle_conf _ _ _ _ _ _ _ _ _ _ E1)|]. split.
    + intros Hs. destruct (handle_low _ _ _ _ _ _ (HL : cf_large (c_conf (conn_new pa ty cf)) = 0) E1 Hs) as [_ ->]. reflexivity.
    + intros Hu. pose proof (handle_hold third jit my_open _ _ _ _ _ _ _ E1 Hu) as H. destruct ty; destruct H.
Qed.
Lemma poll_no_hold now i c e c1 : c_hold c = None -> poll now i c = Some (e, c1) -> e <> EvHold.
Proof.
  unfold poll. intros H. rewrite H. cbn [due]. destruct (due now (c_ka c)); [intros E; inversion E; discriminate|].
  destruct (due now (c_delay c)); [intros E; inversion E; discriminate|].
  destruct i as [i|]; [|discriminate]. intros E. injection E as E.
  destruct i as [m errs|x| | |]; cbn in E; [destruct m as [o|u|n| |r]|..]; inversion E; subst; try discriminate.
  - unfold open_event. destruct (c_peer_asn c) as [a|]; [destruct (a =? my_asn4 o); [|discriminate]|]; destruct (c_delay c); discriminate.
  - unfold update_event. repeat match goal with |- context [if ?b then _ else _] => destruct b end; discriminate.
  - destruct (_ && _); discriminate.
  - destruct x as [| | | | |[]]; discriminate.
Qed.
End Zero.
