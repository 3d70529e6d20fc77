(* Flow aggregation service: configuration and actor, C195-C199. *)
From Verif Require Import Base MapLib WinModel AgModel AgProofs AaModel AaSpec AaProofs AaProofs2 AaProofs3.
From Verif Require WinSpec AgSpec WinTopProofs.
From Coq Require Import ZArith Lia Permutation.
Import AgSpec(obs, mkObs, o_ip, o_exp).

(* ================= C195: the configuration ================= *)
Section C195.
Variable def : N -> iedef.
(* refused exactly for a zero window, a lateness above the window, or an
   operation that its element does not allow *)
Theorem C195_accepted c : accepted def c <->
  0 < c_window c /\ c_lateness c <= c_window c /\ forall ie i o, configured c ie i o -> allowed (def ie) o.
Proof.
  unfold accepted. split.
  - intros (u & H). apply try_into_ok in H as (H1 & H2 & H3 & _). repeat split; auto. now apply fine_all.
  - intros (H1 & H2 & H3). eexists. apply try_into_ok. repeat split; auto. now apply fine_all.
Qed.
(* what is aggregated is what was configured *)
Theorem C195_selected c u : try_into def c = inr u ->
  u_window u = c_window c /\ u_lateness u = c_lateness c /\
  (forall ie i, In (ie, i) (u_keys u) <-> configured c ie i Key) /\
  (forall ie i a, In ((ie, i), a) (u_sel u) <-> configured c ie i (Agg a)).
Proof.
  intros H. apply try_into_ok in H as (_ & _ & _ & ->). cbn. repeat split; intros; rewrite ?configured_places, ?in_key_places, ?in_agg_places in *; auto.
Qed.
(* and no field twice, the maps of the configuration having distinct keys *)
Theorem C195_no_field_twice c u : try_into def c = inr u ->
  NoDup (map fst (c_transform c)) -> (forall ie m, In (ie, Multi m) (c_transform c) -> NoDup (map fst m)) ->
  NoDup (u_keys u ++ map fst (u_sel u)).
Proof.
  intros H N1 N2. apply try_into_ok in H as (_ & _ & _ & ->). cbn [u_keys u_sel]. eapply Permutation_NoDup; [apply Permutation_sym, places_split|]. now apply places_nodup.
Qed.
(* the error names a configured operation that is not allowed *)
Theorem C195_error c e : try_into def c = inl e ->
  match e with
  | InvalidWindowDuration => c_window c = 0
  | LatenessExceedsWindowDuration => 0 < c_window c < c_lateness c
  | InvalidOperation ie o => (exists i, configured c ie i o) /\ ~ allowed (def ie) o
  end.
Proof.
  unfold try_into, validate. destruct (N.eqb_spec (c_window c) 0) as [E|E]; [intros [= <-]; exact E|].
  destruct (N.ltb_spec (c_window c) (c_lateness c)) as [L|L]; [intros [= <-]; lia|].
  destruct (select def (c_transform c) ([], [])) as [e'|[k s]] eqn:Es; [|discriminate]. intros [= ->].
  assert (Hone : forall ie i o acc x, select_one def ie i o acc = inl x -> x = InvalidOperation ie o /\ ~ allowed (def ie) o).
  { intros ie i o acc x. unfold select_one. destruct (compatible (def ie) o) eqn:Ec; [destruct o; discriminate|]. intros [= <-]. split; [reflexivity|]. rewrite <- compatible_allowed. congruence. }
  assert (Hmulti : forall ie m acc x, select_multi def ie m acc = inl x -> exists i o, In (i, o) m /\ x = InvalidOperation ie o /\ ~ allowed (def ie) o).
  { intros ie m. induction m as [|[i o] m IH]; intros acc x; cbn [select_multi]; [discriminate|]. destruct (select_one def ie i o acc) as [y|acc'] eqn:E1.
    - intros [= <-]. apply Hone in E1. exists i, o. split; [now left|exact E1].
    - intros H. destruct (IH _ _ H) as (i' & o' & H1 & H2). exists i', o'. split; [now right|exact H2]. }
  assert (Hall : forall l acc x, select def l acc = inl x -> exists ie t i o, In (ie, t) l /\ match t with Single o' => i = 0 /\ o' = o | Multi m => In (i, o) m end /\ x = InvalidOperation ie o /\ ~ allowed (def ie) o).
  { induction l as [|[ie t] l IH]; intros acc x; cbn [select]; [discriminate|].
    destruct t as [o|m].
    - destruct (select_one def ie 0 o acc) as [y|acc'] eqn:E1.
      + intros [= <-]. apply Hone in E1. exists ie, (Single o), 0, o. cbn. tauto.
      + intros H. destruct (IH _ _ H) as (ie' & t & i & o' & H1 & H2). exists ie', t, i, o'. split; [now right|exact H2].
    - destruct (select_multi def ie m acc) as [y|acc'] eqn:E1.
      + intros [= <-]. apply Hmulti in E1 as (i & o & H1 & H2). exists ie, (Multi m), i, o. cbn. tauto.
      + intros H. destruct (IH _ _ H) as (ie' & t & i & o' & H1 & H2). exists ie', t, i, o'. split; [now right|exact H2]. }
  destruct (Hall _ _ _ Es) as (ie & t & i & o & H1 & H2 & -> & H3). split; [|exact H3]. exists i, t. auto.
Qed.
(* an accepted operation has an implementation; missing: list types and unknown
   elements *)
Theorem C195_implemented_partial c ie i a : accepted def c -> configured c ie i (Agg a) ->
  d_unknown (def ie) = false -> ~ In (d_type (def ie)) lists -> has_operation (def ie) a = true.
Proof.
  intros H Hc Hu Hl. apply C195_accepted in H as (_ & _ & H). specialize (H _ _ _ Hc). unfold has_operation. rewrite Hu. cbn [negb andb].
  destruct a; cbn [allowed] in H.
  - destruct H as (H & H1 & H2). unfold is_numeric. rewrite H1, H2. destruct (d_type (def ie)); cbn in *; auto; intuition discriminate.
  - unfold is_comparable. destruct (d_type (def ie)); cbn in *; auto; intuition discriminate.
  - unfold is_comparable. destruct (d_type (def ie)); cbn in *; auto; intuition discriminate.
  - unfold is_bitwise. destruct (d_type (def ie)); cbn in *; auto; intuition discriminate.
Qed.
End C195.
Print Assumptions C195_accepted.
Print Assumptions C195_selected.
Print Assumptions C195_no_field_twice.
Print Assumptions C195_error.
Print Assumptions C195_implemented_partial.
Notation only ie a := (mkConfig 60 10 [(ie, Single (Agg a))]).
(* Minimum and maximum of a list are accepted and can never be computed *)
Theorem C195_list_minimum_refuted : forall a d, In a [Min; Max] -> In (d_type d) lists ->
  accepted (fun _ => d) (only 291 a) /\ configured (only 291 a) 291 0 (Agg a) /\ has_operation d a = false.
Proof.
  intros a d Ha Hl. assert (Hc : configured (only 291 a) 291 0 (Agg a)) by (exists (Single (Agg a)); cbn; auto). split; [|split; [exact Hc|]].
  - apply C195_accepted. cbn [c_window c_lateness]. split; [lia|]. split; [lia|]. intros ie i o (t & [[= <- <-]|[]] & -> & <-). destruct Ha as [<-|[<-|[]]]; cbn [allowed]; repeat (apply in_or_app; right); exact Hl.
  - unfold has_operation, is_comparable. destruct Ha as [<-|[<-|[]]]; destruct (d_type d); cbn in Hl; intuition discriminate || apply andb_false_r.
Qed.
Print Assumptions C195_list_minimum_refuted.
(* nor can the union of the bits of an unknown element, which is accepted too *)
Theorem C195_unknown_union_refuted : forall d, d_unknown d = true -> d_type d = octetArray ->
  accepted (fun _ => d) (only 999 BoolMapOr) /\ configured (only 999 BoolMapOr) 999 0 (Agg BoolMapOr) /\ has_operation d BoolMapOr = false.
Proof.
  intros d Hu Ht. split; [|split].
  - apply C195_accepted. cbn [c_window c_lateness]. split; [lia|]. split; [lia|]. intros ie i o (t & [[= <- <-]|[]] & -> & <-). cbn. rewrite Ht. tauto.
  - exists (Single (Agg BoolMapOr)). cbn. auto.
  - unfold has_operation. now rewrite Hu.
Qed.
Print Assumptions C195_unknown_union_refuted.
(* Minimum and maximum of booleans and hardware addresses are implemented but
   refused *)
Theorem C195_refused_though_implemented_refuted : forall d, In (d_type d) [boolean; macAddress] -> d_unknown d = false ->
  has_operation d Min = true /\ has_operation d Max = true /\ ~ accepted (fun _ => d) (only 276 Min) /\ ~ accepted (fun _ => d) (only 276 Max).
Proof.
  intros d Ht Hu. unfold has_operation, is_comparable. rewrite Hu.
  assert (Hno : forall a, In a [Min; Max] -> ~ accepted (fun _ => d) (only 276 a)).
  { intros a Ha H. apply C195_accepted in H as (_ & _ & H). specialize (H 276 0 (Agg a)).
    assert (Hc : configured (only 276 a) 276 0 (Agg a)) by (exists (Single (Agg a)); cbn; auto). specialize (H Hc).
    destruct Ht as [Ht|[Ht|[]]], Ha as [<-|[<-|[]]]; cbn in H; rewrite <- Ht in H; intuition discriminate. }
  split; [|split; [|split; apply Hno; cbn; auto]]; destruct Ht as [<-|[<-|[]]]; reflexivity.
Qed.
Print Assumptions C195_refused_though_implemented_refuted.

(* ================= C196: smallest and largest value ================= *)
(* coded fields: right while every value has an assigned meaning, or none has *)
Theorem C196_coded_partial : forall codes a b, (In a codes <-> In b codes) ->
  code_of (coded_max codes (decode_code codes a) (decode_code codes b)) = N.max a b /\
  code_of (coded_min codes (decode_code codes a) (decode_code codes b)) = N.min a b.
Proof.
  intros codes a b H. unfold decode_code.
  assert (Hin : forall n, existsb (N.eqb n) codes = true <-> In n codes). { intros n. rewrite existsb_exists. split; [intros (x & Hx & E); apply N.eqb_eq in E; congruence|intros Hx; exists n; split; [exact Hx|apply N.eqb_refl]]. }
  assert (E : existsb (N.eqb a) codes = existsb (N.eqb b) codes). { apply Bool.eq_iff_eq_true. now rewrite !Hin. }
  rewrite E. destruct (existsb (N.eqb b) codes); unfold coded_max, coded_min, coded_leb, discriminant, code_of.
  - destruct (N.ltb_spec a b), (N.eqb_spec a b), (N.leb_spec a b); cbn; lia.
  - rewrite N.ltb_irrefl, N.eqb_refl. cbn. destruct (N.leb_spec a b); lia.
Qed.
Print Assumptions C196_coded_partial.
(* a value without assigned meaning counts as larger than every assigned one *)
Theorem C196_unassigned_wins_refuted : forall codes a b, (forall c, In c codes -> c <= last codes 0) -> ~ In a codes -> In b codes ->
  code_of (coded_max codes (decode_code codes a) (decode_code codes b)) = a /\
  code_of (coded_min codes (decode_code codes a) (decode_code codes b)) = b.
Proof.
  intros codes a b Hl Ha Hb. unfold decode_code.
  assert (Hin : forall n, existsb (N.eqb n) codes = true <-> In n codes). { intros n. rewrite existsb_exists. split; [intros (x & Hx & E); apply N.eqb_eq in E; congruence|intros Hx; exists n; split; [exact Hx|apply N.eqb_refl]]. }
  assert (Ea : existsb (N.eqb a) codes = false). { destruct (existsb (N.eqb a) codes) eqn:E; [|reflexivity]. apply Hin in E. contradiction. }
  assert (Eb : existsb (N.eqb b) codes = true) by now apply Hin.
  rewrite Ea, Eb. specialize (Hl _ Hb). unfold coded_max, coded_min, coded_leb, discriminant, code_of.
  destruct (N.ltb_spec (last codes 0 + 1) b), (N.eqb_spec (last codes 0 + 1) b); cbn; lia || auto.
Qed.
Print Assumptions C196_unassigned_wins_refuted.
(* natOriginatingAddressRealm: private (1) and public (2); of 0 and 1 the
   maximum is 0 *)
Example C196_realm : code_of (coded_max [1; 2] (decode_code [1; 2] 0) (decode_code [1; 2] 1)) = 0.
Proof. reflexivity. Qed.
(* TCP flags: a value with FIN counts as larger than any value without *)
Theorem C196_fin_wins_refuted : forall a b, N.testbit a 0 = true -> N.testbit b 0 = false -> tcp_max a b = a /\ tcp_max b a = a.
Proof. intros a b Ha Hb. unfold tcp_max, tcp_bits. cbn [map bools_leb]. rewrite Ha, Hb. auto. Qed.
Print Assumptions C196_fin_wins_refuted.
Example C196_fin : tcp_max 1 254 = 1.
Proof. reflexivity. Qed.

(* ================= C197: what is reported ================= *)
Section Actor.
Variables (bits : N -> N) (def : N -> iedef) (c : config) (u : unified).
Notation reached es s := (run bits u actor_new es = Some s).
Notation dur := (Z.of_N (c_window c)).
Notation late := (Z.of_N (c_lateness c)).
Notation flows s := (AgSpec.observations (s_inputs s)).
(* every time stays away from the ends of the calendar *)
Notation calendar s := (Forall (fun o => (time_of o + dur <= time_max /\ time_min + late + dur + minute <= time_of o)%Z) (flows s)).
(* the flows dropped for being late *)
Notation dropped s := (map (fun i => (k_ip (fst i), r_max_exp (snd i))) (discarded s)).
Notation late_flows s := (map (fun o => (o_ip o, o_exp o)) (WinSpec.late_items N.eqb o_ip time_of late (flows s))).

Lemma facts es s : try_into def c = inr u -> reached es s -> 0 < u_window u /\ inv bits u s.
Proof.
  intros Hc Hr. pose proof (C195_selected def c u Hc) as (E & _). split; [|apply (inv_run bits u es actor_new s); [apply inv_new|exact Hr]].
  rewrite E. apply (proj1 (C195_accepted def c)). now exists u.
Qed.
Lemma dropped_late s : discarded s = WinSpec.late_items N.eqb item_key item_time late (flat_map (explode (u_keys u) (u_sel u)) (s_inputs s)) -> dropped s = late_flows s.
Proof.
  intros ->. rewrite explode_items. rewrite (late_items_map (item (u_keys u) (u_sel u)) N.eqb o_ip item_key time_of item_time late); [|reflexivity|reflexivity].
  rewrite map_map. reflexivity.
Qed.
Lemma calendar_roomy s : u_window u = c_window c -> u_lateness u = c_lateness c -> calendar s ->
  Forall (fun x => WinTopProofs.roomy (Z.of_N (u_window u)) (Z.of_N (u_lateness u)) (item_time x)) (flat_map (explode (u_keys u) (u_sel u)) (s_inputs s)).
Proof.
  intros -> -> H. rewrite explode_items. apply Forall_map. eapply Forall_impl; [|exact H]. intros o [H1 H2]. unfold WinTopProofs.roomy. change (item_time (item (u_keys u) (u_sel u) o)) with (time_of o). lia.
Qed.

(* When the input has ended and the records are given away: one record for each
   exporter, minute and values of the key fields, describing all flows that were
   on time, and the late flows were dropped, whatever the interleaving. *)
Theorem C197_at_the_end es s : try_into def c = inr u -> reached es s -> AgSpec.numeric bits (u_sel u) (flows s) ->
  stream_over s -> tasks_done s ->
  accounts bits (u_keys u) (u_sel u) dur late (flows s) (fun _ _ => True) (given_records s) /\ dropped s = late_flows s.
Proof.
  intros Hc Hr Hn Ho Ht. destruct (facts es s Hc Hr) as [Hd I]. pose proof (C195_selected def c u Hc) as (E1 & E2 & _).
  destruct (at_the_end bits u Hd s I Ho Hn) as [H1 H2]. rewrite E1, E2 in *.
  assert (Hh : held_records s = []). { unfold held_records. unfold tasks_done in Ht. induction (s_tasks s) as [|t ts IH]; [reflexivity|]. cbn [flat_map]. rewrite IH by (intros t' Ht'; apply Ht; now right). destruct (Ht t (or_introl eq_refl)) as [A B]. unfold task_records. now rewrite A, B. }
  rewrite Hh, app_nil_r in H2. split; [exact H2|now apply dropped_late].
Qed.
(* While it waits for input: the same for the minutes that are over. *)
Theorem C197_while_waiting es s : try_into def c = inr u -> reached es s -> AgSpec.numeric bits (u_sel u) (flows s) -> waiting s ->
  accounts bits (u_keys u) (u_sel u) dur late (flows s) (WinSpec.over o_ip time_of late dur (flows s)) (given_records s ++ held_records s) /\
  dropped s = late_flows s.
Proof.
  intros Hc Hr Hn Hw. destruct (facts es s Hc Hr) as [Hd I]. pose proof (C195_selected def c u Hc) as (E1 & E2 & _).
  destruct (when_waiting bits u Hd s I Hw Hn) as [H1 H2]. rewrite E1, E2 in *. split; [exact H2|now apply dropped_late].
Qed.
(* Within the calendar the service does not panic; missing: times at its ends *)
Theorem C197_no_panic_partial es s : try_into def c = inr u -> reached es s -> calendar s -> s_ending s <> Panicked.
Proof.
  intros Hc Hr Hk. destruct (facts es s Hc Hr) as [Hd _]. pose proof (C195_selected def c u Hc) as (E1 & E2 & _).
  apply (run_no_panic bits u Hd es actor_new s); [apply inv_new|discriminate|exact Hr|]. now apply calendar_roomy.
Qed.
(* After the input closed, turning the loop long enough gets to the end. *)
Theorem C197_end_comes es s : try_into def c = inr u -> reached es s -> calendar s ->
  s_closed s = true -> s_cmd s = false -> s_ending s = Running ->
  exists n s', run bits u s (repeat Turn n) = Some s' /\ stream_over s' /\ s_inputs s' = s_inputs s.
Proof.
  intros Hc Hr Hk H1 H2 H3. destruct (facts es s Hc Hr) as [Hd I]. pose proof (C195_selected def c u Hc) as (E1 & E2 & _).
  apply (end_comes bits u Hd s I H1 H2 H3). now apply calendar_roomy.
Qed.

(* ================= C198: handing over the records ================= *)
(* the numbers given to the records are 0, 1, 2, ..., modulo 2^32 *)
Theorem C198_numbers es s : try_into def c = inr u -> reached es s -> tasks_done s ->
  Permutation (map g_seq (s_out s)) (map (fun i => N.of_nat i mod 2 ^ 32) (seq 0 (length (s_out s)))).
Proof.
  intros Hc Hr Ht. destruct (facts es s Hc Hr) as [_ [_ _ _ _ (n & _ & Hp)]].
  assert (Hh : flat_map now_seq (s_tasks s) = []). { clear Hp. unfold tasks_done in Ht. induction (s_tasks s) as [|t ts IH]; [reflexivity|]. cbn [flat_map]. rewrite IH by (intros t' Ht'; apply Ht; now right). destruct (Ht t (or_introl eq_refl)) as [A _]. unfold now_seq. now rewrite A. }
  rewrite Hh, app_nil_r in Hp. pose proof (Permutation_length Hp) as Hl. rewrite !map_length, seq_length in Hl. rewrite Hl. exact Hp.
Qed.
(* no two records have the same number, as long as there are at most 2^32 *)
Theorem C198_distinct es s : try_into def c = inr u -> reached es s -> tasks_done s -> N.of_nat (length (s_out s)) <= 2 ^ 32 ->
  NoDup (map g_seq (s_out s)).
Proof.
  intros Hc Hr Ht Hl. eapply Permutation_NoDup; [apply Permutation_sym, (C198_numbers es s Hc Hr Ht)|].
  assert (Hx : forall m k, N.of_nat (m + k) <= 2 ^ 32 -> NoDup (map (fun i => N.of_nat i mod 2 ^ 32) (seq m k))).
  { intros m k. revert m. induction k as [|k IH]; intros m Hm; cbn [seq map]; [constructor|]. constructor; [|apply IH; lia].
    intros Hin. apply in_map_iff in Hin as (i & E & Hi). apply in_seq in Hi. rewrite !N.mod_small in E by lia. lia. }
  apply Hx. cbn. exact Hl.
Qed.

(* ================= C199: ending ================= *)
(* The service is meant to end with its input: it turns for ever instead, never
   waiting, once the window stream is over. *)
Theorem C199_never_ends_refuted es s : try_into def c = inr u -> reached es s -> stream_over s -> s_cmd s = false -> s_ending s = Running ->
  forall n, exists s', run bits u s (repeat Turn n) = Some s' /\ s_ending s' = Running /\ s_answers s' = s_answers s ++ repeat (Ready None) n.
Proof. intros Hc Hr Ho H1 H2 n. destruct (facts es s Hc Hr) as [_ I]. now apply spins. Qed.
(* a command (or dropping the handle) ends it with the next turn, and nothing
   of the window stream is used afterwards *)
Theorem C199_command_ends s : s_cmd s = true -> s_ending s = Running ->
  exists s', step bits u s Turn = Some s' /\ s_ending s' = Terminated /\ s_answers s' = s_answers s /\ s_tasks s' = s_tasks s /\
  forall es' s'', run bits u s' es' = Some s'' -> s_answers s'' = s_answers s /\ s_ending s'' = Terminated.
Proof.
  intros H1 H2. cbn [step]. rewrite H2. eexists. split; [reflexivity|]. unfold turn. rewrite H1, H2. cbn. do 3 (split; [reflexivity|]).
  intros es' s'' H. apply (ended_answers bits u es') in H; [|cbn; discriminate]. cbn in H. exact H.
Qed.
End Actor.
Print Assumptions C197_at_the_end.
Print Assumptions C197_while_waiting.
Print Assumptions C197_no_panic_partial.
Print Assumptions C197_end_comes.
Print Assumptions C198_numbers.
Print Assumptions C198_distinct.
Print Assumptions C199_never_ends_refuted.
Print Assumptions C199_command_ends.

(* ---- an aggregation of two fields, and two packets of two exporters ---- *)
Definition ex_def (ie : N) : iedef := if ie =? 1 then mkIe unsigned64 false false false else mkIe unsigned8 true true false.
Definition ex_config : config := mkConfig 60000000000 10000000000 [(4, Single Key); (1, Single (Agg Add))].
Definition ex_unified : unified := mkUnified 60000000000 10000000000 [(4, 0)] [((1, 0), Add)].
Definition ex_packet (ip t bytes : N) : input := mkInput (mkFlow true 7 t 0 [(256, [(4, VNum 6); (1, VNum bytes)])]) ip 4739 t.
Definition ex_bits (_ : N) : N := 64.
Definition ex_rec (t n : N) (bytes : N) : crec := mkRec [4739] [7] [256] t t t t 0 [Some (1, VNum bytes)] n.
Example C195_nonvacuous : try_into ex_def ex_config = inr ex_unified /\
  try_into ex_def (mkConfig 60 10 [(4, Multi [(0, Key); (1, Agg Add)])]) = inl (InvalidOperation 4 (Agg Add)).
Proof. split; reflexivity. Qed.
(* two exporters, the second sending two flows; a late flow; the input ends *)
Definition ex_events : list event :=
  [Packet (ex_packet 1 100000000000 5); Turn; Packet (ex_packet 2 130000000000 7); Packet (ex_packet 2 131000000000 8); Packet (ex_packet 2 119000000000 9); Turn; Turn; InputClosed; Turn; Turn; Turn].
Definition ex_key (ip : N) : ckey := mkKey ip true [Some (4, VNum 6)].
Definition ex_record2 : crec := mkRec [4739] [7] [256] 130000000000 131000000000 130000000000 131000000000 0 [Some (1, VNum 15)] 2.
Definition ex_final : option actor := run ex_bits ex_unified actor_new (ex_events ++ [Take 0; Take 1; Finish 1 Sent; Finish 0 TimedOut]).
Example C197_nonvacuous : exists s, ex_final = Some s /\ stream_over s /\ tasks_done s /\ s_ending s = Running /\
  map (fun g => (g_ip g, g_win g, snd (g_entry g))) (s_out s) =
    [(2, (120000000000, 180000000000)%Z, ex_record2); (1, (60000000000, 120000000000)%Z, ex_rec 100000000000 1 5)] /\
  map (fun i => (k_ip (fst i), r_max_exp (snd i))) (discarded s) = [(2, 119000000000)] /\
  AgSpec.numeric ex_bits (u_sel ex_unified) (AgSpec.observations (s_inputs s)).
Proof.
  eexists. split; [lazy; reflexivity|]. split; [lazy; tauto|]. split; [intros t Ht; cbn in Ht; destruct Ht as [<-|[<-|[]]]; split; reflexivity|].
  split; [lazy; reflexivity|]. split; [lazy; reflexivity|]. split; [lazy; reflexivity|].
  intros o r op f Ho Hs Hf. destruct Hs as [[= <- <-]|[]]. cbn in Ho. repeat (destruct Ho as [<-|Ho]; [cbn in Hf; injection Hf as <-; eexists; split; reflexivity|]). destruct Ho.
Qed.
(* Records may arrive in another order than that of their numbers, and one that
   cannot be handed over within a second is lost. *)
Theorem C198_out_of_order_refuted : exists s,
  run ex_bits ex_unified actor_new (ex_events ++ [Take 0; Take 1; Finish 1 Sent; Finish 0 Sent]) = Some s /\
  map (fun g => (g_seq g, g_fate g)) (s_out s) = [(1, Sent); (0, Sent)].
Proof. eexists. split; lazy; reflexivity. Qed.
Print Assumptions C198_out_of_order_refuted.
Theorem C198_lost_refuted : exists s, ex_final = Some s /\ stream_over s /\ tasks_done s /\
  exists g, In g (s_out s) /\ g_fate g = TimedOut /\ forall g', In g' (s_out s) -> g_fate g' = Sent -> fst (g_entry g') <> fst (g_entry g).
Proof.
  eexists. split; [lazy; reflexivity|]. split; [lazy; tauto|]. split; [intros t Ht; cbn in Ht; destruct Ht as [<-|[<-|[]]]; split; reflexivity|].
  eexists. split; [right; left; reflexivity|]. split; [reflexivity|]. intros g' [<-|[<-|[]]] H; [lazy; discriminate|discriminate H].
Qed.
Print Assumptions C198_lost_refuted.
Example C198_nonvacuous : exists s, ex_final = Some s /\ map g_seq (s_out s) = [1; 0].
Proof. eexists. split; lazy; reflexivity. Qed.
(* The flows of open minutes and packets not looked at are lost at shutdown,
   whatever happens afterwards. *)
Theorem C199_shutdown_loses_refuted : exists s,
  run ex_bits ex_unified actor_new [Packet (ex_packet 1 100000000000 5); Turn; Packet (ex_packet 2 130000000000 7); Command; Turn] = Some s /\
  s_ending s = Terminated /\ length (AgSpec.observations (s_inputs s)) = 2%nat /\ discarded s = [] /\
  forall es s', run ex_bits ex_unified s es = Some s' -> given_records s' ++ held_records s' = [].
Proof.
  eexists. split; [lazy; reflexivity|]. split; [reflexivity|]. split; [reflexivity|]. split; [reflexivity|]. intros es s' H.
  match type of H with run _ _ ?s _ = _ => set (s0 := s) in * end.
  assert (Hr : run ex_bits ex_unified actor_new [Packet (ex_packet 1 100000000000 5); Turn; Packet (ex_packet 2 130000000000 7); Command; Turn] = Some s0) by (lazy; reflexivity).
  assert (I0 : inv ex_bits ex_unified s0) by (eapply inv_run; [apply inv_new|exact Hr]).
  pose proof (inv_run _ _ _ _ _ I0 H) as [_ _ _ I4 _].
  destruct (ended_answers ex_bits ex_unified es s0 s' ltac:(discriminate) H) as [Ha _]. rewrite Ha in I4. cbn in I4. apply Permutation_sym, Permutation_nil in I4. exact I4.
Qed.
Print Assumptions C199_shutdown_loses_refuted.
Example C199_nonvacuous : exists s, run ex_bits ex_unified actor_new ex_events = Some s /\ stream_over s /\ s_cmd s = false /\ s_ending s = Running.
Proof. eexists. split; [lazy; reflexivity|]. split; [lazy; tauto|]. split; reflexivity. Qed.
