(* Properties C25, C26, C60, C61: NETCONF framing. *)
From Verif Require Import Base BaseLemmas FramingModel NcModel NcSpec NcProofs.
From Coq Require Import Lia.

Section Any.
(* any message type and any XML reader and writer *)
Context {M : Type} (hello_of : list N -> option M) (base11 : M -> bool) (msg_of : list N -> option M).
Context (is_hello : M -> bool) (xml_of : M -> list N).
Local Notation decode := (nc_decode hello_of base11 msg_of).
Local Notation encode := (nc_encode is_hello xml_of).
Local Notation after_hello := (mkNc false []).

(* ---- C25 ---- *)
Theorem C25_message_round_trip : forall m rest, is_hello m = false -> msg_of (xml_of m) = Some m ->
  5 <= blen (xml_of m) <= 4294967295 ->
  decode after_hello (encode m ++ rest) = (after_hello, rest, DItem m).
Proof.
  intros m rest Hh Hm Hl. unfold nc_encode. rewrite Hh. rewrite decode_run.
  replace ((chunk_mark ++ dec (blen (xml_of m)) ++ [10] ++ xml_of m ++ msg_term) ++ rest) with (rfc_chunk (xml_of m) ++ msg_term ++ rest).
  2:{ unfold rfc_chunk. change chunk_mark with [10; 35]. rewrite <- !app_assoc. reflexivity. }
  assert (chunk_ok (xml_of m)) as Hc by (unfold chunk_ok; lia).
  rewrite (chunks_step hello_of); [|exact Hc|].
  2:{ rewrite !blen_app, rfc_chunk_len. pose proof (dec_len1 (blen (xml_of m))). change (blen msg_term) with 4. lia. }
  rewrite starts_with_app. cbn [app]. rewrite Hm. rewrite drop_app_exact by reflexivity. reflexivity.
Qed.
Theorem C25_hello_round_trip : forall h rest, is_hello h = true -> hello_of (xml_header ++ xml_of h) = Some h ->
  base11 h = true -> ends_hello (xml_header ++ xml_of h) ->
  decode nc_new (encode h ++ rest) = (after_hello, rest, DItem h).
Proof.
  intros h rest Hh Hx Hb He. unfold nc_encode. rewrite Hh. rewrite <- !app_assoc. rewrite (app_assoc xml_header).
  apply decode_hello; assumption.
Qed.
(* a whole session, all of it in one read *)
Theorem C25_session_round_trip : forall h ms,
  is_hello h = true -> hello_of (xml_header ++ xml_of h) = Some h -> base11 h = true -> ends_hello (xml_header ++ xml_of h) ->
  Forall (fun m => is_hello m = false /\ msg_of (xml_of m) = Some m /\ 5 <= blen (xml_of m) <= 4294967295) ms ->
  feed_all decode (conn_new nc_new) [encode h ++ flat_map encode ms] =
    mkConn after_hello [] (map DItem (h :: ms)) Waiting.
Proof.
  intros h ms Hh Hx Hb He HF.
  assert (flat_map encode ms = rfc_stream (map (fun m => [xml_of m]) ms)) as Hs.
  { clear -HF. induction HF as [|m ms (H1 & _) HF IH]; [reflexivity|]. cbn [flat_map map]. rewrite IH.
    unfold rfc_stream. cbn [flat_map]. f_equal. unfold nc_encode. rewrite H1. unfold rfc_message, rfc_chunks, rfc_chunk.
    cbn [flat_map]. rewrite app_nil_r. rewrite <- !app_assoc. reflexivity. }
  unfold conn_new. cbn [map]. apply (feed_session hello_of base11 msg_of (xml_header ++ xml_of h) h He Hx Hb _ [] (map (fun m => [xml_of m]) ms)).
  - clear -HF. induction HF as [|m ms (_ & _ & H) HF IH]; cbn; constructor; [|exact IH]. split.
    + constructor; [unfold chunk_ok; lia|constructor].
    + exists [], (xml_of m). split; [reflexivity|lia].
  - clear -HF. induction HF as [|m ms (_ & H & _) HF IH]; cbn; constructor; [|exact IH]. cbn. rewrite app_nil_r. exact H.
  - cbn [concat app]. rewrite app_nil_r, Hs. unfold nc_encode. rewrite Hh. rewrite <- !app_assoc. reflexivity.
  - intros k Hk. destruct k as [|k]; [lia|]. cbn. rewrite skipn_nil. cbn. intros (a & m & b & t1 & t2 & _ & _ & Ht & Hr).
    symmetry in Hr. apply app_eq_nil in Hr. destruct Hr. contradiction.
  - rewrite !app_length. cbn. lia.
Qed.

(* ---- C26 ---- *)
(* Messages of any number of chunks, cut into reads anywhere except between
   the last chunk of a message and the end of its end mark. *)
Theorem C26_any_reads_partial : forall p h ms outs xs,
  ends_hello p -> hello_of p = Some h -> base11 h = true ->
  Forall message_ok ms -> Forall2 (fun cs m => msg_of (concat cs) = Some m) ms outs ->
  concat xs = p ++ hello_term ++ rfc_stream ms -> safe_reads ms xs ->
  feed_all decode (conn_new nc_new) xs = mkConn after_hello [] (map DItem (h :: outs)) Waiting.
Proof.
  intros p h ms outs xs Hp Hh Hb Hok HF He Hs. cbn [map].
  apply (feed_session hello_of base11 msg_of p h Hp Hh Hb xs [] ms); auto.
  rewrite app_length. cbn. lia.
Qed.
(* The hello message alone: no restriction on the reads. *)
Theorem C26_hello_any_reads : forall p h xs, ends_hello p -> hello_of p = Some h -> base11 h = true ->
  concat xs = p ++ hello_term -> feed_all decode (conn_new nc_new) xs = mkConn after_hello [] [DItem h] Waiting.
Proof.
  intros p h xs Hp Hh Hb He. apply (C26_any_reads_partial p h [] [] xs); auto.
  intros k _ (a & m & b & t1 & t2 & H & _). destruct a; discriminate.
Qed.
(* Cut inside the end mark, whatever follows and in whatever reads: the
   message is never delivered, nor is any later one. *)
Theorem C26_late_end_mark_loses_messages_refuted : forall cs t1 t2 ys later,
  Forall chunk_ok cs -> (exists cs' c, cs = cs' ++ [c] /\ 9 <= blen c) ->
  rfc_end = t1 ++ t2 -> t2 <> [] -> concat ys = t2 ++ later ->
  let c := feed_all decode (conn_new after_hello) ((rfc_chunks cs ++ t1) :: ys) in
  nc_items (c_out c) = [] /\ (9 <= blen later -> c_status c = Halted).
Proof.
  intros cs t1 t2 ys later HF H9 He Ht Hy c. subst c.
  assert (length t1 < 4)%nat as L1.
  { pose proof (f_equal (@length N) He) as H. rewrite app_length in H. cbn in H. destruct t2; [contradiction|]. cbn in H. lia. }
  change (feed_all decode (conn_new after_hello) ((rfc_chunks cs ++ t1) :: ys))
    with (feed_all decode (feed decode (conn_new after_hello) (rfc_chunks cs ++ t1)) ys).
  assert (feed decode (conn_new after_hello) (rfc_chunks cs ++ t1) = mkConn (mkNc false (concat cs)) t1 [] Waiting) as ->.
  { unfold feed, conn_new. cbn [c_status c_st c_buf c_out app]. unfold drain. cbn [drain_fuel]. rewrite decode_run.
    rewrite (chunks_all hello_of); [reflexivity| | |lia|exact HF|exact H9].
    - unfold blen. lia.
    - intros r ->. rewrite app_length in L1. cbn in L1. lia. }
  destruct (feed_end hello_of base11 msg_of ys (concat cs) t1 [] Waiting) as (c & -> & H1 & H2).
  - left. reflexivity.
  - exists later. rewrite Hy, app_assoc. change msg_term with rfc_end. rewrite He. reflexivity.
  - intros _. unfold blen. lia.
  - split; [exact H1|]. intros Hl. rewrite H2, Hy, app_assoc. rewrite <- He.
    destruct (N.ltb_spec (blen (rfc_end ++ later)) 13) as [Hx|]; [|reflexivity].
    rewrite blen_app in Hx. change (blen rfc_end) with 4 in Hx. lia.
Qed.
(* A last chunk of four bytes or less: the message, although complete, is
   not delivered when it arrives. *)
Theorem C26_short_last_chunk_refuted : forall c l, chunk_ok c -> 9 <= blen c -> 1 <= blen l <= 4 ->
  c_out (feed_all decode (conn_new after_hello) [rfc_message [c; l]]) = [].
Proof.
  intros c l Hc H9 Hl. unfold feed_all, feed, conn_new. cbn [fold_left c_status c_st c_buf c_out app].
  unfold drain. cbn [drain_fuel]. rewrite decode_run. unfold rfc_message, rfc_chunks. cbn [flat_map]. rewrite app_nil_r, <- app_assoc.
  rewrite (chunks_step hello_of); [|exact Hc|].
  2:{ rewrite blen_app, rfc_chunk_len. pose proof (dec_len1 (blen c)). lia. }
  rewrite (not_end l (rfc_chunk l ++ rfc_end) []).
  2:{ right. eexists. rewrite app_nil_r. reflexivity. }
  rewrite chunks_short; [reflexivity|]. rewrite blen_app, rfc_chunk_len. change (blen rfc_end) with 4.
  assert (blen (dec (blen l)) <= 1) by (apply (dec_fuel_len _ _ 0); change (10 ^ (0 + 1)) with 10; lia). lia.
Qed.

(* ---- C60 ---- *)
Theorem C60_chunk_header_checked_partial : forall acc src s' src' o, 13 <= blen src ->
  decode (mkNc false acc) src = (s', src', o) -> (forall e, o <> DErr e) ->
  exists plus ds rest, src = [10; 35] ++ plus ++ ds ++ [10] ++ rest /\ (plus = [] \/ plus = [43]) /\
    ds <> [] /\ forallb digit ds = true /\ 1 <= dec_val ds <= 4294967295.
Proof.
  intros acc src s' src' o H13 H Hne. rewrite decode_run in H. cbn [chunks] in H.
  change (blen chunk_mark) with 2 in H. change (2 + max_chunk_len + 1) with 13 in H.
  destruct (N.ltb_spec (blen src) 13); [lia|].
  destruct (starts_with chunk_mark src) eqn:Hs; cbn [negb] in H.
  2:{ injection H as <- <- <-. destruct (Hne _ eq_refl). }
  apply starts_with_inv in Hs. change (blen chunk_mark) with 2 in Hs.
  rewrite slice_ok in H by lia. destruct (position 10 (take (13 - 2) (drop 2 src))) as [p|] eqn:Hp.
  2:{ injection H as <- <- <-. destruct (Hne _ eq_refl). }
  pose proof (position_lt _ _ _ Hp) as Hlt. rewrite blen_take in Hlt by (rewrite blen_drop; lia).
  rewrite slice_ok in H by lia. replace (2 + p - 2) with p in H by lia.
  destruct (parse_usize (take p (drop 2 src))) as [n|] eqn:Hn.
  2:{ injection H as <- <- <-. destruct (Hne _ eq_refl). }
  destruct ((n =? 0) || (max_chunk <? n)) eqn:Hr. { injection H as <- <- <-. destruct (Hne _ eq_refl). }
  apply orb_false_iff in Hr. destruct Hr as [Hr1 Hr2]. apply N.eqb_neq in Hr1. apply N.ltb_ge in Hr2. unfold max_chunk in Hr2.
  assert (exists r, drop 2 src = take p (drop 2 src) ++ 10 :: r) as [r Hd].
  { clear -Hp. revert p Hp. generalize (drop 2 src) as l. intros l. generalize (13 - 2) as k. intros k p Hp. unfold take in *.
    revert p Hp. generalize (N.to_nat k) as k'. clear k. intros k'. revert l. induction k' as [|k' IH]; intros [|x l] p Hp; cbn in Hp; try discriminate.
    destruct (N.eqb_spec x 10) as [->|]; [injection Hp as <-; exists l; reflexivity|].
    destruct (position 10 (firstn k' l)) as [q|] eqn:Hq; [|discriminate]. injection Hp as <-.
    destruct (IH l q Hq) as [r Hr]. exists r. replace (N.to_nat (q + 1)) with (S (N.to_nat q)) by lia. cbn [firstn app]. rewrite <- Hr. reflexivity. }
  assert (forall t, parse_digits t = Some n -> t <> [] /\ forallb digit t = true /\ 1 <= dec_val t <= 4294967295) as Hpd.
  { intros t Ht. unfold parse_digits in Ht. destruct t as [|b t]; [discriminate|].
    destruct (forallb digit (b :: t) && (dec_val (b :: t) <? 2 ^ 64)) eqn:Hb; [|discriminate].
    apply andb_true_iff in Hb. destruct Hb as [Hb _]. injection Ht as Ht. split; [discriminate|]. split; [exact Hb|]. rewrite Ht. lia. }
  clear -Hs Hd Hn Hpd. set (t := take p (drop 2 src)) in *. clearbody t. rewrite Hd in Hs. rewrite Hs. clear Hs.
  assert (parse_digits t = Some n \/ exists t', t = 43 :: t' /\ parse_digits t' = Some n) as [Hc|(t' & -> & Hc)].
  { unfold parse_usize in Hn. destruct t as [|b t]; [left; exact Hn|]. destruct (N.eq_dec b 43) as [->|Hne].
    - right. exists t. auto.
    - left. destruct b as [|q]; [exact Hn|]. do 6 (destruct q as [q|q|]; try exact Hn); congruence. }
  - exists [], t, r. destruct (Hpd t Hc) as (A & B & C). split; [reflexivity|]. auto.
  - exists [43], t', r. destruct (Hpd t' Hc) as (A & B & C). split; [reflexivity|]. auto.
Qed.
(* headers RFC 6242 does not allow but the codec takes: a plus sign, leading zeros *)
Theorem C60_lax_header_refuted : forall m, msg_of [60; 120; 121; 122; 62] = Some m ->
  (forall s, In s [[43; 53]; [48; 48; 53]] ->
     decode after_hello ([10; 35] ++ s ++ [10] ++ [60; 120; 121; 122; 62] ++ rfc_end) = (after_hello, [], DItem m)).
Proof. intros m Hm s [<-|[<-|[]]]; vm_compute; rewrite Hm; reflexivity. Qed.

(* ---- C61 ---- *)
Theorem C61_never_panics_or_spins : forall xs,
  let c := feed_all decode (conn_new nc_new) xs in c_status c <> Looping /\ ~ In DPanic (c_out c).
Proof. intros xs. apply feed_ok; [discriminate|auto]. Qed.
Theorem C61_messages_consume_input : forall s b s' b' m, decode s b = (s', b', DItem m) -> (length b' < length b)%nat.
Proof. intros s b s' b' m H. destruct (decode_safe _ _ _ _ _ _ _ _ H) as (_ & _ & H3). exact (H3 m eq_refl). Qed.
End Any.
Print Assumptions C25_message_round_trip.
Print Assumptions C25_hello_round_trip.
Print Assumptions C25_session_round_trip.
Print Assumptions C26_any_reads_partial.
Print Assumptions C26_hello_any_reads.
Print Assumptions C26_late_end_mark_loses_messages_refuted.
Print Assumptions C26_short_last_chunk_refuted.
Print Assumptions C60_chunk_header_checked_partial.
Print Assumptions C60_lax_header_refuted.
Print Assumptions C61_never_panics_or_spins.
Print Assumptions C61_messages_consume_input.

(* ---- concrete sessions: messages are byte strings, the first is the hello ---- *)
Definition demo_hello : list N := [60; 104; 62].
Definition demo_of (b : list N) : option (list N) := Some b.
Definition demo_hello_of (b : list N) : option (list N) := Some (drop 38 b).
Definition demo_is_hello (m : list N) : bool := bytes_eqb m demo_hello.
Definition demo_msg : list N := [60; 114; 112; 99; 47; 62; 97; 98; 99; 100; 101].
Definition demo_decode := nc_decode demo_hello_of (fun _ => true) demo_of.

Example C25_nonvacuous :
  demo_hello_of (xml_header ++ demo_hello) = Some demo_hello /\ ends_hello (xml_header ++ demo_hello) /\
  nc_encode demo_is_hello (fun m => m) demo_msg = [10; 35; 49; 49; 10] ++ demo_msg ++ [10; 35; 35; 10] /\
  feed_all demo_decode (conn_new nc_new) [nc_encode demo_is_hello (fun m => m) demo_hello ++ nc_encode demo_is_hello (fun m => m) demo_msg] =
    mkConn (mkNc false []) [] [DItem demo_hello; DItem demo_msg] Waiting.
Proof.
  split; [reflexivity|]. split; [|split; vm_compute; reflexivity].
  intros pre post H. destruct post as [|x post]; [reflexivity|exfalso].
  pose proof (f_equal (@length N) H) as HL. rewrite !app_length in HL. cbn in HL.
  assert (length pre < 41)%nat as Hp by lia.
  assert (firstn 6 (skipn (length pre) ((xml_header ++ demo_hello) ++ [93; 93; 62; 93; 93; 62])) = [93; 93; 62; 93; 93; 62]) as HH.
  { rewrite H. rewrite skipn_app, skipn_all2, Nat.sub_diag by lia. reflexivity. }
  clear -Hp HH. remember (length pre) as n. clear pre Heqn. do 41 (destruct n as [|n]; [vm_compute in HH; discriminate|]). lia.
Qed.
(* one message in two chunks, cut inside a header and inside a chunk *)
Example C26_nonvacuous :
  let x := [xml_header ++ demo_hello ++ [93; 93]; [62; 93; 93; 62; 10]; [35; 51; 10; 60; 114; 112; 10]; [35; 56; 10; 99; 47; 62; 97];
            [98; 99; 100; 101; 10; 35; 35; 10]] in
  concat x = (xml_header ++ demo_hello) ++ hello_term ++ rfc_stream [[take 3 demo_msg; drop 3 demo_msg]] /\
  Forall message_ok [[take 3 demo_msg; drop 3 demo_msg]] /\
  c_out (feed_all demo_decode (conn_new nc_new) x) = [DItem demo_hello; DItem demo_msg].
Proof.
  split; [reflexivity|]. split; [|vm_compute; reflexivity].
  apply Forall_cons; [|apply Forall_nil]. split.
  - apply Forall_cons; [split; vm_compute; discriminate|]. apply Forall_cons; [split; vm_compute; discriminate|apply Forall_nil].
  - exists [take 3 demo_msg], (drop 3 demo_msg). split; [reflexivity|vm_compute; discriminate].
Qed.
(* the same message, end mark in a read of its own, followed by another *)
Example C26_lost_nonvacuous :
  c_out (feed_all demo_decode (conn_new (mkNc false [])) [rfc_chunks [demo_msg]; rfc_end; rfc_message [demo_msg]]) = [DErr BadSizeText] /\
  c_out (feed_all demo_decode (conn_new (mkNc false [])) [rfc_chunks [demo_msg] ++ rfc_end; rfc_message [demo_msg]]) = [DItem demo_msg; DItem demo_msg].
Proof. split; vm_compute; reflexivity. Qed.
Example C60_nonvacuous : exists s, demo_decode (mkNc false []) ([10; 35; 43; 53; 10; 1; 2; 3; 4; 5] ++ rfc_end) = (s, [], DItem [1; 2; 3; 4; 5]).
Proof. exists (mkNc false []). vm_compute. reflexivity. Qed.
Example C61_nonvacuous : c_out (feed_all demo_decode (conn_new nc_new) [[1; 2; 3; 4; 5]; [6; 7; 8]]) = [] /\
  c_out (feed_all demo_decode (conn_new (mkNc false [])) [[1; 2; 3; 4; 5; 6; 7; 8; 9; 10; 11; 12; 13]]) = [DErr NoChunkStart].
Proof. split; vm_compute; reflexivity. Qed.
