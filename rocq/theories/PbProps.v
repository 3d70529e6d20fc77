(* The collector's publishers: what becomes of the messages given to them. *)
From Coq Require Import List Bool Arith NArith ZArith Lia.
From Verif Require Import PbModel PbSpec PbProofs PbYangProofs.
Import ListNotations.

(* ---- C161: every message is delivered once and in order, or accounted for ---- *)
Section Json.
  Context {T V B : Type}.
  Variable serializer : T -> option (option V * V).
  Variable to_vec : V -> option B.
  Notation after es := (json_run serializer to_vec json_init es).

Theorem C161_json_fates es : exists fs,
    Forall2 (json_fate serializer to_vec) (j_in (after es)) fs /\
    j_out (after es) = delivered fs /\ all_but_last fs /\
    (jbusy (after es) = false -> Forall settled fs) /\
    n_received (j_stats (after es)) = length (j_in (after es)) /\
    n_sent (j_stats (after es)) = length (j_out (after es)) /\
    n_decode (j_stats (after es)) = count_bad fs /\
    n_send (j_stats (after es)) = count_lost fs.
  Proof.
    destruct (jinv_run serializer to_vec es) as (fs & H1 & H2 & H3 & H4 & H5 & H6 & H7). exists fs.
    split; [exact H1|]. split; [exact H2|]. split; [|split; [|auto]].
    - destruct (j_phase (after es)); [left; exact H7| |left; exact H7].
      destruct H7 as (gs & E & Hs). right. exists gs, r. auto.
    - unfold jbusy. destruct (j_phase (after es)); [auto|discriminate|auto].
  Qed.
Theorem C161_json_counted es : jbusy (after es) = false ->
    n_received (j_stats (after es)) =
      n_sent (j_stats (after es)) + n_decode (j_stats (after es)) + n_send (j_stats (after es)).
  Proof.
    intros Hb. destruct (C161_json_fates es) as (fs & H1 & H2 & _ & Hs & H3 & H4 & H5 & H6). specialize (Hs Hb).
    rewrite H3, H4, H5, H6, H2. clear -H1 Hs. induction H1 as [|m f ms fs Hm _ IH]; [reflexivity|].
    apply Forall_cons_iff in Hs. destruct Hs as [Hf Hs]. specialize (IH Hs).
    change (f :: fs) with ([f] ++ fs). rewrite delivered_app, count_bad_app, count_lost_app, app_length. cbn [length].
    destruct f; cbn in *; try contradiction; lia.
  Qed.

  (* ---- C162: a full queue is waited for ---- *)
Theorem C162_json_patience j m r k : j_phase j = JIdle -> is_record serializer to_vec m r -> k < 20 ->
    let j' := json_run serializer to_vec j (JMsg m :: repeat (JAnswer QueueFull) k ++ [JAnswer Queued]) in
    j_out j' = j_out j ++ [r] /\ j_phase j' = JIdle.
  Proof.
    intros Ep Hr Hk. apply json_record_some in Hr. cbn zeta. cbn [json_run fold_left].
    unfold json_step at 2 4. rewrite Ep, Hr.
    match goal with |- context [fold_left _ _ ?x] => set (s := x) end.
    change (fold_left (json_step serializer to_vec)) with (json_run serializer to_vec) || idtac.
    assert (E : forall l, fold_left (json_step serializer to_vec) l s = json_run serializer to_vec s l) by reflexivity.
    rewrite E, json_run_app. rewrite (json_full serializer to_vec s r k) by (reflexivity || lia). cbn. auto.
  Qed.
Theorem C162_json_gives_up j m r : j_phase j = JIdle -> is_record serializer to_vec m r ->
    let j' := json_run serializer to_vec j (JMsg m :: repeat (JAnswer QueueFull) 20) in
    j_out j' = j_out j /\ j_phase j' = JIdle /\ n_send (j_stats j') = S (n_send (j_stats j)) /\
    j_slept j' = (j_slept j + 5242870)%N.
  Proof.
    intros Ep Hr. apply json_record_some in Hr. cbn zeta.
    change (JMsg m :: repeat (JAnswer QueueFull) 20) with ([JMsg m] ++ (repeat (JAnswer QueueFull) 19 ++ [JAnswer QueueFull])).
    rewrite !json_run_app.
    assert (E : json_run serializer to_vec j [JMsg m] =
      Json (JTrying r first_interval) (j_in j ++ [m]) (j_out j) (j_slept j) (j_flushed j) (add_received (j_stats j))).
    { cbn. unfold json_step. now rewrite Ep, Hr. }
    rewrite E, (json_full serializer to_vec _ r 19) by (reflexivity || lia).
    change (N.of_nat 19) with 19%N. cbn. auto.
  Qed.
  (* any other error of librdkafka drops the message at once *)
Theorem C162_json_refused j m r : j_phase j = JIdle -> is_record serializer to_vec m r ->
    let j' := json_run serializer to_vec j [JMsg m; JAnswer Refused] in
    j_out j' = j_out j /\ j_phase j' = JIdle /\ n_send (j_stats j') = S (n_send (j_stats j)) /\ j_slept j' = j_slept j.
  Proof.
    intros Ep Hr. apply json_record_some in Hr. cbn. unfold json_step at 2 4 6 8. rewrite Ep, Hr. cbn. auto.
  Qed.

  (* ---- C163: how a publisher ends ---- *)
Theorem C163_json_over j es : jover j = true -> json_run serializer to_vec j es = j.
  Proof.
    intros E. induction es as [|e es IH]; [reflexivity|]. cbn [json_run fold_left].
    assert (E2 : json_step serializer to_vec j e = j).
    { unfold json_step. unfold jover in E. destruct (j_phase j); try discriminate. destruct e; reflexivity. }
    rewrite E2. exact IH.
  Qed.
Theorem C163_json_flush es : j_phase (after es) = JOver ByShutdown -> j_flushed (after es) = true.
  Proof.
    assert (H : j_phase (@json_init T B) = JOver ByShutdown -> j_flushed (@json_init T B) = true) by discriminate.
    revert H. unfold json_run. generalize (@json_init T B). induction es as [|e es IH]; intros j H; cbn [fold_left]; [exact H|].
    apply IH. unfold json_step. destruct (j_phase j) eqn:Ep; destruct e; cbn; try discriminate; try rewrite Ep; try discriminate; auto.
    - destruct (json_record serializer to_vec m); cbn; discriminate.
    - destruct (attempt i a); cbn; discriminate.
  Qed.
  (* when its input ends instead, what is in librdkafka's queue is not flushed *)
Theorem C163_json_unflushed_refuted m r es : is_record serializer to_vec m r ->
    let j := after ([JMsg m; JAnswer Queued; JInputClosed] ++ es) in
    j_out j = [r] /\ j_flushed j = false /\ j_phase j = JOver ByInputClosed.
  Proof.
    intros Hr. apply json_record_some in Hr. cbn zeta. rewrite json_run_app.
    assert (E : after [JMsg m; JAnswer Queued; JInputClosed] =
      Json (JOver ByInputClosed) [m] [r] 0 false (add_sent (add_received no_stats))).
    { unfold json_run. cbn [fold_left]. unfold json_step. cbn [j_phase json_init]. rewrite Hr. reflexivity. }
    rewrite E, C163_json_over by reflexivity. auto.
  Qed.
End Json.
Print Assumptions C161_json_fates.
Print Assumptions C161_json_counted.
Print Assumptions C162_json_patience.
Print Assumptions C162_json_gives_up.
Print Assumptions C162_json_refused.
Print Assumptions C163_json_over.
Print Assumptions C163_json_flush.
Print Assumptions C163_json_unflushed_refuted.

Section Avro.
  Context {T V K B : Type}.
  Variable get_key : T -> option K.
  Variable to_vec : K -> option B.
  Variable get_values : T -> option (list V).
  Notation after es := (avro_run get_key to_vec get_values avro_init es).
  Notation dealt := (dealt_with get_key to_vec get_values).

  (* the values of a message are delivered one by one and in order, each with the message's
     key; one that fails does not keep the others back *)
Theorem C161_avro_fates es : exists fs,
    (if abusy (after es) then
       exists ms m gs f, a_in (after es) = ms ++ [m] /\ fs = gs ++ [f] /\ Forall2 dealt ms gs /\
         under_way get_key to_vec get_values m f /\ a_returned (after es) = map reported gs
     else Forall2 dealt (a_in (after es)) fs /\ a_returned (after es) = map reported fs) /\
    a_out (after es) = delivered (flat_map values_of fs) /\
    n_received (a_stats (after es)) = length (a_in (after es)) /\
    n_sent (a_stats (after es)) = length (a_out (after es)) /\
    n_decode (a_stats (after es)) = count_unconverted fs + count_bad (flat_map values_of fs) /\
    n_send (a_stats (after es)) = count_lost (flat_map values_of fs).
  Proof.
    pose proof (ainv_run get_key to_vec get_values es) as H. unfold ainv in H. unfold abusy.
    destruct (a_phase (after es)) as [|key v rest ok errs|key r i rest ok errs|w].
    - destruct H as (fs & H1 & H2 & H3). exists fs. auto.
    - destruct H as (ms & m & gs & l & vs & H1 & H2 & H3 & H4 & H5 & H6 & H7 & H8 & H9 & H10 & H11).
      exists (gs ++ [Tried l]). split; [|exact H11]. exists ms, m, gs, (Tried l). do 3 (split; [auto|]). split; [|exact H3].
      exists key, vs. do 2 (split; [assumption|]). split; [lia|]. split; [now left|exact H8].
    - destruct H as (ms & m & gs & l & vs & H1 & H2 & H3 & H4 & H5 & H6 & H7 & H8 & Hk & H9 & H10 & T1 & T2 & T3 & T4 & T5).
      exists (gs ++ [Tried (l ++ [Pending r])]). split.
      + exists ms, m, gs, (Tried (l ++ [Pending r])). do 3 (split; [auto|]). split; [|exact H3].
        exists key, vs. do 2 (split; [assumption|]). split; [rewrite app_length; cbn; lia|].
        split; [right; exists l, r; auto|]. apply Forall_snoc; auto.
      + fold (@vals B) in *. change (flat_map values_of) with (@vals B).
        rewrite vals_app in *. rewrite count_unconverted_app in *. cbn in T1, T4, T5 |- *. rewrite app_nil_r in *.
        rewrite app_assoc, (delivered_app _ [Pending r]), (count_bad_app _ [Pending r]), (count_lost_app _ [Pending r]). cbn.
        rewrite app_nil_r, !Nat.add_0_r in *. auto.
    - destruct H as (fs & H1 & H2 & H3). exists fs. auto.
  Qed.

Theorem C162_avro_patience a key v rest ok errs b k : a_phase a = AEncoding key v rest ok errs -> k < 20 ->
    let a' := avro_run get_key to_vec get_values a (AEncoded (Some b) :: repeat (AAnswer QueueFull) k ++ [AAnswer Queued]) in
    a_out a' = a_out a ++ [Record key b].
  Proof.
    intros Ep Hk. cbn zeta.
    change (AEncoded (Some b) :: repeat (AAnswer QueueFull) k ++ [AAnswer Queued])
      with ([@AEncoded T B (Some b)] ++ (repeat (AAnswer QueueFull) k ++ [AAnswer Queued])).
    rewrite !avro_run_app.
    assert (E : avro_run get_key to_vec get_values a [AEncoded (Some b)] =
      Avro (ATrying key (Record key b) first_interval rest ok errs) (a_in a) (a_out a) (a_returned a) (a_flushed a) (a_stats a)).
    { cbn. unfold avro_step. now rewrite Ep. }
    rewrite E, (avro_full get_key to_vec get_values _ key (Record key b) rest ok errs k) by (reflexivity || lia).
    cbn. unfold next_value. destruct rest; reflexivity.
  Qed.
Theorem C162_avro_gives_up a key v rest ok errs b : a_phase a = AEncoding key v rest ok errs ->
    let a' := avro_run get_key to_vec get_values a (AEncoded (Some b) :: repeat (AAnswer QueueFull) 20) in
    a_out a' = a_out a /\ n_send (a_stats a') = S (n_send (a_stats a)) /\
    a_phase a' = match rest with w :: rest => AEncoding key w rest ok (S errs) | [] => AIdle end.
  Proof.
    intros Ep. cbn zeta.
    change (AEncoded (Some b) :: repeat (AAnswer QueueFull) 20)
      with ([@AEncoded T B (Some b)] ++ (repeat (AAnswer QueueFull) 19 ++ [AAnswer QueueFull])).
    rewrite !avro_run_app.
    assert (E : avro_run get_key to_vec get_values a [AEncoded (Some b)] =
      Avro (ATrying key (Record key b) first_interval rest ok errs) (a_in a) (a_out a) (a_returned a) (a_flushed a) (a_stats a)).
    { cbn. unfold avro_step. now rewrite Ep. }
    rewrite E, (avro_full get_key to_vec get_values _ key (Record key b) rest ok errs 19) by (reflexivity || lia).
    change (N.of_nat 19) with 19%N. cbn. unfold next_value. destruct rest; cbn; auto.
  Qed.
Theorem C163_avro_over a es : aover a = true -> avro_run get_key to_vec get_values a es = a.
  Proof.
    intros E. induction es as [|e es IH]; [reflexivity|]. cbn [avro_run fold_left].
    assert (E2 : avro_step get_key to_vec get_values a e = a).
    { unfold avro_step. unfold aover in E. destruct (a_phase a); try discriminate. destruct e; reflexivity. }
    rewrite E2. exact IH.
  Qed.
Theorem C163_avro_flush es : a_phase (after es) = AOver ByShutdown -> a_flushed (after es) = true.
  Proof.
    assert (H : a_phase (@avro_init T V B) = AOver ByShutdown -> a_flushed (@avro_init T V B) = true) by discriminate.
    revert H. unfold avro_run. generalize (@avro_init T V B). induction es as [|e es IH]; intros a H; cbn [fold_left]; [exact H|].
    apply IH. assert (N : forall x key vs ok errs out s, a_phase (@next_value T V B x key vs ok errs out s) <> AOver ByShutdown)
      by (intros x key vs; destruct vs; discriminate).
    unfold avro_step. destruct (a_phase a) eqn:Ep; destruct e; cbn; try discriminate; try rewrite Ep; try discriminate; auto.
    - destruct (avro_key get_key to_vec m); [destruct (get_values m)|]; cbn; try discriminate. intros E. now apply N in E.
    - destruct b; cbn; [discriminate|]. intros E. now apply N in E.
    - destruct (attempt i a0); cbn; try discriminate; intros E; now apply N in E.
  Qed.
End Avro.
Print Assumptions C161_avro_fates.
Print Assumptions C162_avro_patience.
Print Assumptions C162_avro_gives_up.
Print Assumptions C163_avro_over.
Print Assumptions C163_avro_flush.

(* ---- C164: the HTTP publisher ---- *)
Section Http.
  Context {T M : Type}.
  Variable converter : T -> list M.
  Variable batch_size : nat.
  Notation after es := (http_run converter batch_size http_init es).

  (* what the messages were converted to is, in order and each once, in the answered
     requests and then in the buffer; every request is larger than the batch size *)
Theorem C164_batches es :
    flat_map converter (h_in (after es)) = concat (map fst (filter answered (h_posted (after es)))) ++ h_buf (after es) /\
    Forall (fun p => batch_size < length (fst p)) (h_posted (after es)) /\
    h_received (after es) = length (h_in (after es)) /\
    h_sent (after es) = length (concat (map fst (filter answered (h_posted (after es))))) /\
    (h_phase (after es) = HIdle -> length (h_buf (after es)) <= batch_size).
  Proof.
    destruct (hinv_run converter batch_size es) as (H1 & H2 & H3 & H4 & H5 & H6).
    do 4 (split; [assumption|]). intros E. rewrite E in H6. apply H6.
  Qed.
Theorem C163_http_over h es : hover h = true -> http_run converter batch_size h es = h.
  Proof. unfold hover. destruct (h_phase h) eqn:E; try discriminate. intros _. eapply http_over; eauto. Qed.
  (* a message in the buffer when the publisher is stopped, or its input ends, is never sent *)
Theorem C164_lost_on_stop_refuted m e es : converter m <> [] -> length (converter m) <= batch_size ->
    e = HShutdown \/ e = HInputClosed ->
    let h := after ([HMsg m; e] ++ es) in
    h_posted h = [] /\ h_received h = 1 /\ h_failed h = 0 /\ hover h = true.
  Proof.
    intros Hn Hl He. cbn zeta. unfold http_run. rewrite fold_left_app. cbn [fold_left].
    unfold http_step at 3 6 9 12. cbn [h_phase http_init h_buf h_in h_posted h_received h_sent h_failed app].
    replace (Nat.ltb batch_size (length (converter m))) with false by (symmetry; apply Nat.ltb_ge; exact Hl).
    destruct He as [-> | ->].
    - match goal with |- context [fold_left _ es ?x] => assert (E : fold_left (http_step converter batch_size) es x = x) by (apply (http_over converter batch_size x es ByShutdown); reflexivity) end.
      rewrite E. cbn. auto.
    - match goal with |- context [fold_left _ es ?x] => assert (E : fold_left (http_step converter batch_size) es x = x) by (apply (http_over converter batch_size x es ByInputClosed); reflexivity) end.
      rewrite E. cbn. auto.
  Qed.
  (* a batch the server refused is dropped, and counted as sent *)
Theorem C164_status_ignored_refuted m : batch_size < length (converter m) ->
    let h := after [HMsg m; HResponse (Response 500)] in
    h_buf h = [] /\ h_sent h = length (converter m) /\ h_failed h = 0 /\ h_phase h = HIdle.
  Proof.
    intros Hl. cbn zeta. unfold http_run. cbn [fold_left]. unfold http_step at 2 4 6 8.
    cbn [h_phase http_init h_buf h_in h_posted h_received h_sent h_failed app].
    replace (Nat.ltb batch_size (length (converter m))) with true by (symmetry; apply Nat.ltb_lt; exact Hl).
    cbn. auto.
  Qed.
  (* one request that fails ends the publisher *)
Theorem C164_failure_ends_refuted m es : batch_size < length (converter m) ->
    let h := after ([HMsg m; HResponse Failed] ++ es) in
    h_in h = [m] /\ h_posted h = [(converter m, Failed)] /\ hover h = true.
  Proof.
    intros Hl. cbn zeta. unfold http_run. rewrite fold_left_app. cbn [fold_left]. unfold http_step at 3 6 9.
    cbn [h_phase http_init h_buf h_in h_posted h_received h_sent h_failed app].
    replace (Nat.ltb batch_size (length (converter m))) with true by (symmetry; apply Nat.ltb_lt; exact Hl).
    match goal with |- context [fold_left _ es ?x] => assert (E : fold_left (http_step converter batch_size) es x = x) by (apply (http_over converter batch_size x es ByHttpError); reflexivity) end.
    rewrite E. cbn. auto.
  Qed.
End Http.
Print Assumptions C164_batches.
Print Assumptions C163_http_over.
Print Assumptions C164_lost_on_stop_refuted.
Print Assumptions C164_status_ignored_refuted.
Print Assumptions C164_failure_ends_refuted.

(* ---- C165: the HTTP client is set up as configured ---- *)
Theorem C165_settings_partial c : e_tcp_keepalive c = None -> create_http_client c = settings c.
Proof. destruct c as [[k|] [i|] [m|] [t|] [n|]]; cbn; intros E; try discriminate; reflexivity. Qed.
Print Assumptions C165_settings_partial.
(* the keep-alive interval is taken for the time limit of a request *)
Theorem C165_keepalive_refuted t i m n : let c := Endpoint (Some t) i m None n in
  c_tcp_keepalive (create_http_client c) = None /\ c_timeout (create_http_client c) = Some t.
Proof. destruct i, m, n; cbn; auto. Qed.
Print Assumptions C165_keepalive_refuted.

(* ---- C166: messages carry the schema of their content id ---- *)
Section Yang.
  Context {T V B C L : Type}.
  Variable eqc : C -> C -> bool.
  Variable content_id : T -> option C.
  Variable get_key : T -> option V.
  Variable serialize_json : T -> option B.
  Variable to_vec : V -> option B.
  Variable default : option Z.
  Variable custom : list (C * Z).
  Notation run := (@yang_run T V B C L eqc content_id get_key serialize_json to_vec default).
  Notation after es := (run (yang_init eqc custom) es).
  Notation honest_run es := (honest eqc content_id get_key serialize_json to_vec default (@yang_init T B C L eqc custom) es).
  Notation fate_ok := (@yang_fate T V B C L content_id get_key serialize_json to_vec default custom).

  (* every message is delivered once and in order with a schema that is right for it, or is
     accounted for, or [YUntyped] its schema could not be had *)
Theorem C166_schema es : (forall a b, eqc a b = true <-> a = b) -> honest_run es -> exists fs,
    Forall2 (fate_ok (y_registered (after es)) (y_asked (after es))) (y_in (after es)) fs /\
    y_out (after es) = ydelivered fs /\ (ybusy (after es) = false -> Forall ysettled fs) /\
    n_received (y_stats (after es)) = length (y_in (after es)) /\
    n_sent (y_stats (after es)) = length (y_out (after es)) /\
    n_decode (y_stats (after es)) = ycount_bad fs /\ n_send (y_stats (after es)) = ycount_lost fs.
  Proof.
    intros Hq Hh. destruct (yinv_run eqc Hq content_id get_key serialize_json to_vec default custom es Hh) as [I1 I2 I3 I4 I5 I6 (fs & F1 & F2 & F3 & F4 & F5)].
    exists fs. do 2 (split; [assumption|]). split; [intros E; rewrite E in F5; exact F5|auto].
  Qed.
  (* a library is registered once, and one configured is neither asked for nor registered again *)
Theorem C166_registered_once es : (forall a b, eqc a b = true <-> a = b) -> honest_run es ->
    NoDup (map (fun e => fst (fst e)) (y_registered (after es))) /\
    (forall c id, custom_id custom c id ->
       ~ In c (y_asked (after es)) /\ ~ In c (map (fun e => fst (fst e)) (y_registered (after es)))).
  Proof.
    intros Hq Hh. destruct (yinv_run eqc Hq content_id get_key serialize_json to_vec default custom es Hh) as [I1 I2 I3 I4 I5 I6 _].
    split; [exact I2|]. intros c id Hc. split.
    - intros Hi. eapply I4; eauto.
    - intros Hi. apply in_map_iff in Hi. destruct Hi as ([[c1 l] id1] & E & Hi). cbn in E. subst c1. eapply I3; eauto.
  Qed.
  (* once it is registered every message with the content id carries that id *)
Theorem C166_from_then_on es c id m r : (forall a b, eqc a b = true <-> a = b) -> honest_run es ->
    custom_id custom c id \/ (exists l, In (c, l, id) (y_registered (after es))) ->
    y_phase (after es) = YIdle -> content_id m = Some c -> is_yrecord get_key serialize_json to_vec m r ->
    y_out (after (es ++ [YMsg m; YAnswer Queued])) = y_out (after es) ++ [YRecord r (Some id)] /\
    y_asked (after (es ++ [YMsg m; YAnswer Queued])) = y_asked (after es).
  Proof.
    intros Hq Hh Hc Ep Em Hr. destruct (yinv_run eqc Hq content_id get_key serialize_json to_vec default custom es Hh) as [I1 _ _ _ _ _ _].
    apply I1 in Hc. apply yang_record_some in Hr. rewrite yang_run_app. revert Ep Hc. generalize (after es). intros y Ep Hc.
    cbn [yang_run fold_left]. unfold yang_step at 2 4. rewrite Ep, Hr, Em, Hc. cbn. auto.
  Qed.
  (* until then each message asks the schema cache *)
Theorem C166_asks es c m r : (forall a b, eqc a b = true <-> a = b) -> honest_run es ->
    (forall id, ~ custom_id custom c id) -> (forall l id, ~ In (c, l, id) (y_registered (after es))) ->
    y_phase (after es) = YIdle -> content_id m = Some c -> is_yrecord get_key serialize_json to_vec m r ->
    y_asked (after (es ++ [YMsg m; YRequested true])) = y_asked (after es) ++ [c].
  Proof.
    intros Hq Hh Hn Hg Ep Em Hr. destruct (yinv_run eqc Hq content_id get_key serialize_json to_vec default custom es Hh) as [I1 _ _ _ _ _ _].
    assert (Hc : cache_get eqc (y_cache (after es)) c = None).
    { destruct (cache_get eqc (y_cache (after es)) c) as [id|] eqn:E; [|reflexivity]. apply I1 in E. destruct E as [E|(l & E)]; [now apply Hn in E|now apply Hg in E]. }
    apply yang_record_some in Hr. rewrite yang_run_app. revert Ep Hc. generalize (after es). intros y Ep Hc.
    cbn [yang_run fold_left]. unfold yang_step at 2. rewrite Ep, Hr, Em, Hc. cbn. auto.
  Qed.
Theorem C162_yang_patience y m r k : y_phase y = YIdle -> content_id m = None -> is_yrecord get_key serialize_json to_vec m r -> k < 20 ->
    y_out (run y (YMsg m :: repeat (YAnswer QueueFull) k ++ [YAnswer Queued])) = y_out y ++ [YRecord r default].
  Proof.
    intros Ep Em Hr Hk. apply yang_record_some in Hr.
    change (YMsg m :: repeat (YAnswer QueueFull) k ++ [YAnswer Queued]) with ([@YMsg T C L m] ++ (repeat (YAnswer QueueFull) k ++ [YAnswer Queued])).
    rewrite !yang_run_app.
    assert (E : run y [YMsg m] = Yang (YTrying (YRecord r default) first_interval) (y_cache y) (y_in y ++ [m]) (y_out y) (y_asked y) (y_registered y) (y_flushed y) (add_received (y_stats y))).
    { cbn. unfold yang_step. now rewrite Ep, Hr, Em. }
    rewrite E, (yang_full eqc content_id get_key serialize_json to_vec default _ (YRecord r default) k) by (reflexivity || lia). reflexivity.
  Qed.
Theorem C162_yang_gives_up y m r : y_phase y = YIdle -> content_id m = None -> is_yrecord get_key serialize_json to_vec m r ->
    let y' := run y (YMsg m :: repeat (YAnswer QueueFull) 20) in
    y_out y' = y_out y /\ y_phase y' = YIdle /\ n_send (y_stats y') = S (n_send (y_stats y)).
  Proof.
    intros Ep Em Hr. apply yang_record_some in Hr. cbn zeta.
    change (YMsg m :: repeat (YAnswer QueueFull) 20) with ([@YMsg T C L m] ++ (repeat (YAnswer QueueFull) 19 ++ [YAnswer QueueFull])).
    rewrite !yang_run_app.
    assert (E : run y [YMsg m] = Yang (YTrying (YRecord r default) first_interval) (y_cache y) (y_in y ++ [m]) (y_out y) (y_asked y) (y_registered y) (y_flushed y) (add_received (y_stats y))).
    { cbn. unfold yang_step. now rewrite Ep, Hr, Em. }
    rewrite E, (yang_full eqc content_id get_key serialize_json to_vec default _ (YRecord r default) 19) by (reflexivity || lia).
    change (N.of_nat 19) with 19%N. cbn. auto.
  Qed.
Theorem C163_yang_over y es : yover y = true -> run y es = y.
  Proof.
    intros E. induction es as [|e es IH]; [reflexivity|]. cbn [yang_run fold_left].
    assert (E2 : yang_step eqc content_id get_key serialize_json to_vec default y e = y).
    { unfold yang_step. unfold yover in E. destruct (y_phase y); try discriminate. destruct e; reflexivity. }
    rewrite E2. exact IH.
  Qed.
Theorem C163_yang_flush es : y_phase (after es) = YOver ByShutdown -> y_flushed (after es) = true.
  Proof.
    assert (H : y_phase (@yang_init T B C L eqc custom) = YOver ByShutdown -> y_flushed (@yang_init T B C L eqc custom) = true) by discriminate.
    revert H. unfold yang_run. generalize (@yang_init T B C L eqc custom). induction es as [|e es IH]; intros y H; cbn [fold_left]; [exact H|].
    apply IH. unfold yang_step. destruct (y_phase y) eqn:Ep; destruct e; cbn; try discriminate; try rewrite Ep; try discriminate; auto.
    - destruct (yang_record get_key serialize_json to_vec m); cbn; [|discriminate].
      destruct (content_id m); [destruct (cache_get eqc (y_cache y) c)|]; discriminate.
    - destruct ok; discriminate.
    - destruct f; discriminate.
    - destruct id as [[id|]|]; discriminate.
    - destruct (attempt i a); cbn; discriminate.
  Qed.
  (* a message whose schema cannot be registered is dropped without a trace in the counters *)
Theorem C161_yang_uncounted_refuted m r c l : (forall a b, eqc a b = true <-> a = b) -> (forall id, ~ custom_id custom c id) ->
    content_id m = Some c -> is_yrecord get_key serialize_json to_vec m r ->
    let y := after [YMsg m; YRequested true; YAnswered (Found c l); YRegistered None] in
    y_phase y = YIdle /\ y_out y = [] /\ y_stats y = Stats 1 0 0 0 0.
  Proof.
    intros Hq Hn Em Hr. apply yang_record_some in Hr. cbn zeta.
    assert (Hc : cache_get eqc (y_cache (@yang_init T B C L eqc custom)) c = None).
    { destruct (cache_get eqc (y_cache (@yang_init T B C L eqc custom)) c) as [id|] eqn:E; [|reflexivity].
      apply (cache_init eqc Hq) in E. now apply Hn in E. }
    cbn [yang_run fold_left]. unfold yang_step at 4 8 12. cbn [y_phase yang_init]. rewrite Hr, Em.
    cbn [yang_init y_cache] in Hc |- *. rewrite Hc. cbn. auto.
  Qed.
End Yang.
Print Assumptions C166_schema.
Print Assumptions C166_registered_once.
Print Assumptions C166_from_then_on.
Print Assumptions C166_asks.
Print Assumptions C162_yang_patience.
Print Assumptions C162_yang_gives_up.
Print Assumptions C163_yang_over.
Print Assumptions C163_yang_flush.
Print Assumptions C161_yang_uncounted_refuted.

(* ---- the theorems' hypotheses are met ---- *)
(* messages are numbers; an odd one has a key, multiples of five cannot be serialised *)
Definition ex_ser (n : nat) : option (option nat * nat) :=
  if Nat.eqb (n mod 5) 0 then None else Some (if Nat.odd n then Some (100 + n) else None, n).
Definition ex_vec (n : nat) : option nat := Some (1000 + n).
Example C161_nonvacuous :
  let j := json_run ex_ser ex_vec json_init
    [JMsg 1; JAnswer QueueFull; JAnswer Queued; JMsg 5; JMsg 2; JAnswer Refused; JMsg 4; JAnswer Queued; JMsg 7] in
  j_out j = [Record (Some 1101) 1001; Record None 1004] /\ j_stats j = Stats 5 2 1 1 1 /\ jbusy j = true /\
  is_record ex_ser ex_vec 1 (Record (Some 1101) 1001) /\ (forall r, ~ is_record ex_ser ex_vec 5 r).
Proof.
  cbn zeta. repeat (split; [reflexivity|]). split; [eapply Keyed; reflexivity|].
  intros r [v b E|k v kb b E]; discriminate E.
Qed.
Example C161_avro_nonvacuous :
  let a := avro_run (fun n : nat => Some n) ex_vec (fun n => if Nat.eqb n 9 then None else Some (seq 0 n)) avro_init
    [AMsg 3; AEncoded (Some 7); AAnswer Queued; AEncoded None; AEncoded (Some 8); AAnswer Queued; AMsg 9; AMsg 0; AMsg 1; AEncoded (Some 5)] in
  a_out a = [Record (Some 1003) 7; Record (Some 1003) 8] /\ a_returned a = [PartlySent; NotConverted; NothingToSend] /\
  a_stats a = Stats 4 2 0 2 0 /\ abusy a = true.
Proof. cbn. auto. Qed.
Example C164_nonvacuous :
  let h := http_run (fun n : nat => [n; n]) 3 http_init [HMsg 1; HMsg 2; HResponse (Response 200); HMsg 3] in
  h_posted h = [([1; 1; 2; 2], Response 200)] /\ h_buf h = [3; 3] /\ h_sent h = 4.
Proof. cbn. auto. Qed.
Definition ex_content (n : nat) : option nat := if Nat.eqb n 0 then None else Some (n mod 10).
Notation ex_yang es := (@yang_run nat nat nat nat nat Nat.eqb ex_content (fun _ => None) ex_vec ex_vec (Some 42%Z) (yang_init Nat.eqb [(3, 30%Z)]) es).
Example C166_nonvacuous :
  let es := [YMsg 11; YRequested true; YAnswered (Found 1 77); YRegistered (Some (Some 10%Z)); YAnswer Queued; YMsg 21; YAnswer Queued;
             YMsg 13; YAnswer Queued; YMsg 0; YAnswer Queued; YMsg 4; YRequested true; YAnswered TimedOut; YAnswer Queued] in
  honest Nat.eqb ex_content (fun _ => None) ex_vec ex_vec (Some 42%Z) (@yang_init nat nat nat nat Nat.eqb [(3, 30%Z)]) es /\
  y_out (ex_yang es) = [YRecord (Record None 1011) (Some 10%Z); YRecord (Record None 1021) (Some 10%Z);
                        YRecord (Record None 1013) (Some 30%Z); YRecord (Record None 1000) (Some 42%Z); YRecord (Record None 1004) (Some 42%Z)] /\
  y_asked (ex_yang es) = [1; 4] /\ y_phase (ex_yang es) = YIdle /\ custom_id [(3, 30%Z)] 3 30%Z.
Proof.
  cbn zeta. split; [|split; [lazy; reflexivity|split; [lazy; reflexivity|split; [lazy; reflexivity|]]]].
  - lazy. repeat split; intros r c c' l E1 E2; try discriminate E1; try discriminate E2. injection E1 as <- <-. now injection E2 as <- <-.
  - exists [], []. cbn. auto.
Qed.
