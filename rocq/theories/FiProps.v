(* Properties C99-C105: enrichment from files. *)
From Verif Require Import Base BaseLemmas MapLib EnModel EnSpec EnProofs EnProps FiModel FiSpec FiTextProofs FiRunProofs.
From Coq Require Import Permutation String List.
Open Scope N_scope.

Section Files.
Variable parse_v6 : text -> option N.
Variable parse_json : text -> option payload.
Variable parent : N -> N.
Notation run := (files_run parse_v6 parse_json parent).
Notation said := (said parse_v6 parse_json).
Notation says := (says parse_v6 parse_json).

(* ---- C99 ---- *)
(* Whatever happened before, an event sends one delete for each thing the files
   said and no longer say, then one upsert for each thing they newly say, and
   nothing else. *)
Theorem C99_exactly_the_difference : parse_json [] = None ->
  forall cfg order disk0 vs v, NoDup (map fst cfg) -> walks_all order -> Forall (fun v => walks_all (v_order v)) (vs ++ [v]) -> all_watched parent cfg disk0 ->
  let was := fun p => content_after (disk0 p) p vs in let is := fun p => content_after (disk0 p) p (vs ++ [v]) in
  exists R A, NoDup R /\ NoDup A /\
  (forall a, In a R <-> said cfg was a /\ ~ said cfg is a) /\
  (forall a, In a A <-> said cfg is a /\ ~ said cfg was a) /\
  snd (run cfg order disk0 (vs ++ [v])) = snd (run cfg order disk0 vs) ++ map (fun a => delete_op (snd a)) R ++ map (fun a => upsert_op (snd a)) A.
Proof. intros Hj cfg order disk0 vs v Hn Ho Hov Ha. exact (files_run_event parse_v6 parse_json parent cfg order disk0 vs v Hj Hn Ho Hov Ha). Qed.
(* Rewriting a file with the same lines, in any order, number, indentation and
   with any comments, sends nothing. *)
Theorem C99_same_lines_send_nothing : parse_json [] = None ->
  forall cfg order disk0 vs p t t' o', NoDup (map fst cfg) -> walks_all order -> Forall (fun v => walks_all (v_order v)) vs -> walks_all o' -> all_watched parent cfg disk0 ->
  content_after (disk0 p) p vs = Text t -> (forall l, holds_line t l <-> holds_line t' l) ->
  snd (run cfg order disk0 (vs ++ [mkEvent Changed p (Text t') o'])) = snd (run cfg order disk0 vs).
Proof.
  intros Hj cfg order disk0 vs p t t' o' Hn Ho Hov Ho' Ha Ht Hl.
  destruct (C99_exactly_the_difference Hj cfg order disk0 vs (mkEvent Changed p (Text t') o') Hn Ho ltac:(apply Forall_app; split; [exact Hov|repeat constructor; exact Ho']) Ha) as (R & A & _ & _ & HR & HA & ->).
  assert (Hs : forall a, said cfg (fun q => content_after (disk0 q) q vs) a <-> said cfg (fun q => content_after (disk0 q) q (vs ++ [mkEvent Changed p (Text t') o'])) a).
  { intros [[q l] y]. unfold FiSpec.said, FiSpec.says. split; intros (fmt & t0 & H1 & H2 & H3 & H4).
    - destruct (N.eq_dec q p) as [->|Hq].
      + exists fmt, t'. rewrite content_snoc. cbn [content_after v_path v_kind v_disk]. rewrite N.eqb_refl. rewrite Ht in H2. injection H2 as <-. rewrite Hl in H3. auto.
      + exists fmt, t0. rewrite content_snoc. cbn [content_after v_path v_kind v_disk]. destruct (N.eqb_spec p q) as [E|_]; [symmetry in E; contradiction|auto].
    - rewrite content_snoc in H2. cbn [content_after v_path v_kind v_disk] in H2. destruct (N.eqb_spec p q) as [<-|Hq].
      + injection H2 as <-. exists fmt, t. rewrite <- Hl in H3. auto.
      + exists fmt, t0. auto. }
  assert (R = []) as ->. { destruct R as [|a R]; [reflexivity|]. destruct (HR a) as [H _]. destruct (H (or_introl eq_refl)) as [H1 H2]. apply Hs in H1. contradiction. }
  assert (A = []) as ->. { destruct A as [|a A]; [reflexivity|]. destruct (HA a) as [H _]. destruct (H (or_introl eq_refl)) as [H1 H2]. apply Hs in H1. contradiction. }
  now rewrite app_nil_r.
Qed.

(* ---- C100 ---- *)
(* After any history of changes the cache holds exactly what the files now
   say, provided no two lines ever spoke of the same element of one scope. *)
Theorem C100_cache_follows_files_partial : parse_json [] = None ->
  forall cfg order disk0 vs, NoDup (map fst cfg) -> walks_all order -> Forall (fun v => walks_all (v_order v)) vs -> all_watched parent cfg disk0 ->
  (forall k, unambiguous parse_v6 parse_json cfg (fun p => content_after (disk0 p) p (firstn k vs))) ->
  agrees parse_v6 parse_json cfg (fun p => content_after (disk0 p) p vs) (apply_ops (snd (run cfg order disk0 vs))).
Proof. intros Hj cfg order disk0 vs. apply files_run_agrees. exact Hj. Qed.

(* ---- C104 ---- *)
(* Then a record gets one value for each element the files offer it: what some
   line says for a scope the record matches, none heavier being said. *)
Theorem C104_records_get_what_files_say_partial : parse_json [] = None ->
  forall cfg order disk0 vs ip dom fs, NoDup (map fst cfg) -> walks_all order -> Forall (fun v => walks_all (v_order v)) vs -> all_watched parent cfg disk0 ->
  (forall k, unambiguous parse_v6 parse_json cfg (fun p => content_after (disk0 p) p (firstn k vs))) ->
  let offered := fun r w f => exists p l d scope fs', says cfg (fun p => content_after (disk0 p) p vs) p l ip d scope w fs' /\ occurrence fs' r = Some f /\ applies dom d /\ scope_matches scope fs in
  exists rs l, NoDup rs /\ (forall r, In r rs <-> exists w f, offered r w f) /\
  Forall2 (fun r f => exists w, offered r w f /\ forall w' f', offered r w' f' -> w' <= w) rs l /\
  enrichment_fields (apply_ops (snd (run cfg order disk0 vs))) ip dom fs = match l with [] => None | _ => Some l end.
Proof.
  intros Hj cfg order disk0 vs ip dom fs Hn Ho Hov Ha Hu offered. pose proof (C100_cache_follows_files_partial Hj cfg order disk0 vs Hn Ho Hov Ha Hu) as Hag.
  set (ops := snd (run cfg order disk0 vs)) in *. destruct (C34_best_values ops ip dom fs) as (rs & l & H1 & H2 & H3 & H4). exists rs, l. split; [exact H1|].
  assert (Hoff : forall r w f, offered r w f <-> exists d scope, applies dom d /\ scope_matches scope fs /\ stored (apply_ops ops) ip d scope r = Some (w, f)).
  { intros r w f. split.
    - intros (p & l0 & d & scope & fs' & K1 & K2 & K3 & K4). exists d, scope. split; [exact K3|]. split; [exact K4|]. apply Hag. eauto.
    - intros (d & scope & K1 & K2 & K3). apply Hag in K3 as (p & l0 & fs' & K3 & K4). exists p, l0, d, scope, fs'. auto. }
  split; [|split; [|exact H4]].
  - intros r. rewrite H2. split.
    + intros (d & scope & [w f] & K). exists w, f. apply Hoff. exists d, scope. exact K.
    + intros (w & f & K). apply Hoff in K as (d & scope & K). exists d, scope, (w, f). exact K.
  - clear H1 H2 H4. induction H3 as [|r f rs l [_ (w & d & scope & K1 & K2 & K3 & K4)] _ IH]; constructor; [|exact IH]. exists w. split; [apply Hoff; eauto|].
    intros w' f' K. apply Hoff in K as (d' & scope' & K). destruct K as (K5 & K6 & K7). destruct (K4 _ _ _ _ K5 K6 K7) as [K|[K _]]; lia.
Qed.

(* ---- C101 ---- *)
(* A file that appears in a directory none of whose configured files existed
   at the start is never read: no event there has any effect. *)
Theorem C101_late_directories_ignored_refuted : forall cfg order disk0 vs v,
  (forall p fmt, In (p, fmt) cfg -> parent p = parent (v_path v) -> disk0 p = Missing) ->
  run cfg order disk0 (vs ++ [v]) = run cfg order disk0 vs.
Proof.
  intros cfg order disk0 vs v H. rewrite files_run_snoc. cbn zeta. unfold world_step. destruct (existsb _ _) eqn:E.
  - apply existsb_ies in E. apply dirs_known in E as (p & fmt & Hp & Hd & Hm). exfalso. apply Hm. eapply H; eauto.
  - cbn [fst snd]. rewrite app_nil_r. now destruct (run cfg order disk0 vs).
Qed.

(* ---- C102 ---- *)
(* A pmacct line is read as an entry exactly when it describes it. *)
Theorem C102_line_read_iff_described : forall l e, parse_line parse_v6 l = Some (Some e) <-> describes parse_v6 l e.
Proof. exact (parse_line_spec parse_v6 parse_json). Qed.
(* The order of the words does not matter when no key is set twice. *)
Theorem C102_word_order_irrelevant : forall ws ws' l l' e, Permutation ws ws' ->
  (forall k v v', In (assignment k v) ws -> In (assignment k v') ws -> v = v') -> NoDup ws ->
  (forall w, In w ws -> forall x, w <> str "!" ++ x /\ w <> str "#" ++ x) ->
  words l ws -> words l' ws' -> describes parse_v6 l e -> describes parse_v6 l' e.
Proof.
  intros ws ws' l l' e Hp Hk Hnd Hc Hl Hl' (ws0 & H1 & H2 & H3 & H4 & H5 & H6 & H7). apply words_iff in H1, Hl. assert (ws0 = ws) as -> by congruence.
  assert (Hlast : forall k v, last_is k ws v -> last_is k ws' v).
  { intros k v (l1 & l2 & E & _). assert (Hi : In (assignment k v) ws') by (eapply Permutation_in; [exact Hp|]; rewrite E; apply in_or_app; right; now left).
    apply in_split in Hi as (m1 & m2 & E'). exists m1, m2. split; [exact E'|]. intros v' Hv'. assert (v' = v) as ->.
    { apply (Hk k); eapply Permutation_in; try (apply Permutation_sym; exact Hp); rewrite E'; apply in_or_app; right; [now right|now left]. }
    assert (Hnd' : NoDup ws') by (eapply Permutation_NoDup; eauto). rewrite E' in Hnd'. apply NoDup_remove_2 in Hnd'. apply Hnd'. apply in_or_app. now right. }
  assert (Hnever : forall k, never_set k ws -> never_set k ws') by (intros k H v Hv; apply (H v); eapply Permutation_in; [apply Permutation_sym; exact Hp|exact Hv]).
  assert (Hnum : forall k o, number_said k ws o -> number_said k ws' o).
  { intros k [i|]; cbn; [|apply Hnever]. intros (v & Hv & Hi). eauto. }
  exists ws'. split; [exact Hl'|]. split; [|split]; [| |split; [|split; [|split]]].
  - intros w w' ->. refine (proj1 (Hc (str "!" ++ w) _ w) eq_refl). eapply Permutation_in; [apply Permutation_sym; exact Hp|now left].
  - intros w w' ->. refine (proj2 (Hc (str "#" ++ w) _ w) eq_refl). eapply Permutation_in; [apply Permutation_sym; exact Hp|now left].
  - rewrite Forall_forall in *. intros w Hw. apply H4. eapply Permutation_in; [apply Permutation_sym; exact Hp|exact Hw].
  - auto.
  - destruct H6 as (v & Hv & Hv'). eauto.
  - destruct (scope_numbers (e_scope e)) as [[i o] m]. destruct H7 as (K1 & K2 & K3). auto.
Qed.
(* A line that sets two scopes is refused. *)
Theorem C102_two_scopes_refused : forall l ws k k' v v', words l ws -> In (assignment k v) ws -> In (assignment k' v') ws -> k <> k' ->
  In k [str "in"; str "out"; str "mpls_vpn_id"] -> In k' [str "in"; str "out"; str "mpls_vpn_id"] -> forall e, ~ describes parse_v6 l e.
Proof.
  intros l ws k k' v v' Hw Hv Hv' Hne Hk Hk' e (ws0 & H1 & _ & _ & _ & _ & _ & H7). apply words_iff in H1, Hw. assert (ws0 = ws) as -> by congruence.
  assert (Hno : forall k v, In (assignment k v) ws -> forall o, number_said k ws o -> o <> None).
  { intros x y Hx o Ho ->. cbn in Ho. exact (Ho y Hx). }
  destruct (e_scope e) as [[i|i|i]|]; cbn [scope_numbers] in H7; destruct H7 as (K1 & K2 & K3);
  cbn [In] in Hk, Hk'; destruct Hk as [<-|[<-|[<-|[]]]]; destruct Hk' as [<-|[<-|[<-|[]]]]; try contradiction;
  repeat match goal with K : number_said ?k ws None, H : In (assignment ?k ?v) ws |- _ => exfalso; exact (K v H) end.
Qed.

(* ---- C103 ---- *)
(* A route distinguisher is read exactly when it is one of the three forms,
   and then as the eight octets of that form. *)
Theorem C103_route_distinguisher_read_iff : forall t v, parse_field 90 t = Some (90, v) <-> rd_said t v.
Proof.
  intros t v. rewrite parse_field_spec. split.
  - intros (v' & E & [[_ H]|[H _]]); [injection E as ->; exact H|discriminate].
  - intros H. exists v. split; [reflexivity|]. left. auto.
Qed.
End Files.
(* One text has one value, and texts with the same value have the same type,
   administrator and assigned number. *)
Theorem C103_route_distinguisher_unique : forall t v v', rd_said t v -> rd_said t v' -> v = v'.
Proof. intros t v v' H H'. apply parse_rd_spec in H, H'. congruence. Qed.
Theorem C103_same_value_same_parts : forall t t' v, rd_said t v -> rd_said t' v -> exists k a n, rd_form t k a n /\ rd_form t' k a n.
Proof.
  assert (H : forall t v, rd_said t v -> exists k a n, rd_form t k a n /\
    ((k = 0 /\ a < 65536 /\ n < 4294967296 /\ v = a * 4294967296 + n) \/ ((k = 1 \/ k = 2) /\ a < 4294967296 /\ n < 65536 /\ v = k * 281474976710656 + a * 65536 + n))).
  { intros t v (p0 & p1 & p2 & Ht & Hw & [(a & n & H1 & H2 & H3 & H4 & H5 & Hv)|[(a & b & c & d & n & H1 & H2 & H3 & H4 & Hv)|(a & n & H1 & H2 & H3 & H4 & H5 & Hv)]]).
    - exists 0, a, n. split; [|left; auto]. exists p0, p1, p2. repeat (split; [assumption|]). left. split; [discriminate|assumption].
    - pose proof (dotted_range _ _ _ _ _ H2) as (K1 & K2 & K3 & K4). exists 1, (a * 16777216 + b * 65536 + c * 256 + d), n. split; [|right; repeat split; auto; lia].
      exists p0, p1, p2. repeat (split; [assumption|]). right. split; [reflexivity|]. exists a, b, c, d. auto.
    - exists 2, a, n. split; [|right; auto]. exists p0, p1, p2. repeat (split; [assumption|]). left. split; [discriminate|assumption]. }
  intros t t' v H1 H2. apply H in H1 as (k & a & n & F1 & C1). apply H in H2 as (k' & a' & n' & F2 & C2). exists k, a, n. split; [exact F1|].
  assert (k' = k /\ a' = a /\ n' = n) as (-> & -> & ->); [|exact F2]. clear F1 F2 H t t'.
  destruct C1 as [(-> & K1 & K2 & ->)|(Hk & K1 & K2 & ->)], C2 as [(-> & K3 & K4 & E)|(Hk' & K3 & K4 & E)]; lia.
Qed.

(* ---- what goes wrong ---- *)
Definition no_v6 : text -> option N := fun _ => None.
Definition no_json : text -> option payload := fun _ => None.
Definition flat : N -> N := fun _ => 0.
Definition line_a : text := str "id=100 ip=10.0.0.1".
Definition line_b : text := str "id=200 ip=10.0.0.1".
Definition both : text := line_a ++ 10 :: line_b.
Definition as_is (ls : list text) : list text := ls.
Definition back (ls : list text) : list text := rev ls.
Definition sampling : list (N * format) := [(1, PmacctMaps 50 10)].
Definition addr_a : N := 167772161.
(* Two lines for one exporter: which value is held depends on the order in
   which a hash set is walked, and when either line is removed nothing is held,
   although the file still gives a value. *)
Theorem C100_two_lines_for_one_slot_refuted :
  let d0 := fun _ : N => Text both in
  let left := fun order => apply_ops (snd (files_run no_v6 no_json flat sampling order d0 [mkEvent Changed 1 (Text line_a) order])) in
  stored (apply_ops (snd (files_run no_v6 no_json flat sampling as_is d0 []))) addr_a 0 [] (50, 0) = Some (10, (50, 200)) /\
  stored (apply_ops (snd (files_run no_v6 no_json flat sampling back d0 []))) addr_a 0 [] (50, 0) = Some (10, (50, 100)) /\
  says no_v6 no_json sampling (fun _ => Text line_a) 1 line_a addr_a 0 [] 10 [(50, 100)] /\
  left as_is = [] /\ left back = [].
Proof.
  cbn zeta. split; [vm_compute; reflexivity|]. split; [vm_compute; reflexivity|]. split; [|split; vm_compute; reflexivity].
  exists (PmacctMaps 50 10), line_a. split; [now left|]. split; [reflexivity|]. split.
  - apply file_lines_holds; [discriminate|]. vm_compute. now left.
  - apply line_payloads_provides. exists [mkPayload addr_a 0 [] 10 [(50, 100)]]. split; [vm_compute; reflexivity|now left].
Qed.
(* A word without an equals sign is dropped: a mistyped interface makes the
   value one for all records of the exporter. *)
Theorem C102_stray_words_widen_scope_refuted :
  parse_line no_v6 (str "id=100 ip=10.0.0.1 in=5") = Some (Some (mkEntry (str "100") addr_a (Some (PIn 5)))) /\
  parse_line no_v6 (str "id=100 ip=10.0.0.1 in 5") = Some (Some (mkEntry (str "100") addr_a None)) /\
  parse_line no_v6 (str "id=100 ip=10.0.0.1 in: =5") = None.
Proof. repeat split; vm_compute; reflexivity. Qed.

(* ---- C105 ---- *)
(* A file configured twice is read in the first format and unread in the
   second: what it said stays in the cache when the file is gone. *)
Theorem C105_same_file_twice_refuted :
  let cfg := [(1, PmacctMaps 50 10); (1, FlowUpserts)] in
  stored (apply_ops (snd (files_run no_v6 no_json flat cfg as_is (fun _ => Text line_a) [mkEvent Gone 1 Missing as_is]))) addr_a 0 [] (50, 0) = Some (10, (50, 100)) /\
  snd (files_run no_v6 no_json flat [(1, FlowUpserts)] as_is (fun _ => Text line_a) []) = [].
Proof. split; vm_compute; reflexivity. Qed.

Print Assumptions C99_exactly_the_difference. Print Assumptions C99_same_lines_send_nothing.
Print Assumptions C100_cache_follows_files_partial. Print Assumptions C100_two_lines_for_one_slot_refuted.
Print Assumptions C101_late_directories_ignored_refuted.
Print Assumptions C102_line_read_iff_described. Print Assumptions C102_word_order_irrelevant. Print Assumptions C102_two_scopes_refused. Print Assumptions C102_stray_words_widen_scope_refuted.
Print Assumptions C103_route_distinguisher_read_iff. Print Assumptions C103_route_distinguisher_unique. Print Assumptions C103_same_value_same_parts.
Print Assumptions C104_records_get_what_files_say_partial. Print Assumptions C105_same_file_twice_refuted.

(* ---- the hypotheses are met ---- *)
(* two files: sampling rates by exporter and interface, and route
   distinguishers *)
Definition two : list (N * format) := [(1, PmacctMaps 50 10); (2, PmacctMaps 90 20)].
Definition rates : text := str "# rates" ++ 10 :: line_a ++ 10 :: str "  id=200 ip=10.0.0.1 in=7  ".
Definition rates' : text := str "id=300 ip=10.0.0.1 in=7" ++ 10 :: str "! old" ++ 10 :: 9 :: line_a.
Definition vpns : text := str "ip=10.0.0.1 id=0:65000:12 mpls_vpn_id=9".
Definition start (p : N) : disk := if p =? 1 then Text rates else Missing.
Definition history : list event := [mkEvent Changed 2 (Text vpns) as_is; mkEvent Changed 1 (Text rates') as_is].
Lemma one_text cfg files p l ip dom scope w fs : (forall t, files p <> Text t) -> ~ says no_v6 no_json cfg files p l ip dom scope w fs.
Proof. intros H (fmt & t & _ & Ht & _). exact (H t Ht). Qed.
(* the payloads some file contents stand for, by computation *)
Definition listed (cfg : list (N * format)) (files : N -> disk) : list (N * text * payload) :=
  flat_map (fun e => match files (fst e) with
    | Text t => flat_map (fun l => match line_payloads no_v6 no_json (snd e) l with Some ps => map (fun y => (fst e, l, y)) ps | None => [] end) (file_lines t)
    | _ => [] end) cfg.
Lemma says_listed cfg files p l ip dom scope w fs : says no_v6 no_json cfg files p l ip dom scope w fs -> In (p, l, mkPayload ip dom scope w fs) (listed cfg files).
Proof.
  intros (fmt & t & Hc & Ht & Hl & Hp). apply in_flat_map. exists (p, fmt). split; [exact Hc|]. cbn [fst snd]. rewrite Ht. apply in_flat_map. exists l.
  split; [apply file_lines_holds; [now destruct Hl|exact Hl]|]. apply line_payloads_provides in Hp as (ps & E & Hy). rewrite E. apply in_map_iff. eauto.
Qed.
Definition clash (a b : N * text * payload) : bool :=
  let y := snd a in let z := snd b in
  (p_ip y =? p_ip z) && (p_dom y =? p_dom z) && scope_eqb (p_scope y) (p_scope z) && existsb (fun ie => existsb (N.eqb ie) (map ie_of (p_fields z))) (map ie_of (p_fields y)).
Fixpoint clear (l : list (N * text * payload)) : bool :=
  match l with [] => true | a :: l' => negb (existsb (clash a) l' || existsb (fun b => clash b a) l') && clear l' end.
Lemma clear_In l : clear l = true -> forall a b, In a l -> In b l -> clash a b = true -> a = b.
Proof.
  induction l as [|x l IH]; intros H a b; [intros []|]. cbn [clear] in H. apply andb_prop in H as [H1 H2]. apply negb_true_iff, orb_false_iff in H1 as [H0 H1].
  intros [<-|Ha] [<-|Hb] Hc; [reflexivity| | |now apply IH].
  - exfalso. assert (existsb (clash x) l = true) by (apply existsb_exists; eauto). congruence.
  - exfalso. assert (existsb (fun b => clash b x) l = true) by (apply existsb_exists; eauto). congruence.
Qed.
Lemma clear_unambiguous cfg files : clear (listed cfg files) = true -> unambiguous no_v6 no_json cfg files.
Proof.
  intros H p l ip dom scope w fs p' l' w' fs' ie H1 H2 Hi Hi'. apply says_listed in H1, H2.
  assert (E : (p, l, mkPayload ip dom scope w fs) = (p', l', mkPayload ip dom scope w' fs')).
  { apply (clear_In _ H); auto. unfold clash. cbn [snd p_ip p_dom p_scope p_fields]. rewrite !N.eqb_refl. destruct (scope_eqb_spec scope scope) as [_|n]; [|now destruct n].
    cbn [andb]. apply existsb_exists. exists ie. split; [exact Hi|]. apply existsb_exists. exists ie. split; [exact Hi'|apply N.eqb_refl]. }
  injection E as -> -> -> ->. auto.
Qed.
Lemma met : NoDup (map fst two) /\ walks_all as_is /\ Forall (fun v => walks_all (v_order v)) history /\ all_watched flat two start /\
  (forall k, unambiguous no_v6 no_json two (fun p => content_after (start p) p (firstn k history))).
Proof.
  split; [vm_compute; repeat constructor; cbn; intuition discriminate|]. split; [intros ls; apply Permutation_refl|].
  split; [repeat constructor; intros ls; apply Permutation_refl|]. split.
  - intros p fmt _. exists 1, (PmacctMaps 50 10). split; [now left|]. split; [reflexivity|discriminate].
  - intros [|[|[|k]]]; apply clear_unambiguous; vm_compute; reflexivity.
Qed.
Example C99_nonvacuous : NoDup (map fst two) /\ walks_all as_is /\ Forall (fun v => walks_all (v_order v)) history /\ all_watched flat two start /\
  snd (files_run no_v6 no_json flat two as_is start history) =
  [Upsert addr_a 0 [] 10 [(50, 100)]; Upsert addr_a 0 [(10, 7)] 10 [(50, 200)];
   Upsert addr_a 0 [(234, 9)] 20 [(ingress_rd, 65000 * 4294967296 + 12)]; Upsert addr_a 0 [(235, 9)] 20 [(egress_rd, 65000 * 4294967296 + 12)];
   Delete addr_a 0 [(10, 7)] 10 [50]; Upsert addr_a 0 [(10, 7)] 10 [(50, 300)]].
Proof. destruct met as (H1 & H2 & H3 & H4 & _). repeat (split; [assumption|]). vm_compute. reflexivity. Qed.
Example C100_nonvacuous : (forall k, unambiguous no_v6 no_json two (fun p => content_after (start p) p (firstn k history))) /\
  stored (apply_ops (snd (files_run no_v6 no_json flat two as_is start history))) addr_a 0 [(10, 7)] (50, 0) = Some (10, (50, 300)).
Proof. split; [apply met|vm_compute; reflexivity]. Qed.
Example C101_nonvacuous : let parent := fun p => p in (forall p fmt, In (p, fmt) two -> parent p = 2 -> start p = Missing) /\
  files_run no_v6 no_json parent two as_is start [mkEvent Changed 2 (Text vpns) as_is] = files_run no_v6 no_json parent two as_is start [] /\
  snd (files_run no_v6 no_json flat two as_is start [mkEvent Changed 2 (Text vpns) as_is]) <> snd (files_run no_v6 no_json flat two as_is start []).
Proof. cbn zeta. split; [intros p fmt _ ->; reflexivity|]. split; vm_compute; [reflexivity|discriminate]. Qed.
Example C102_nonvacuous : describes no_v6 vpns (mkEntry (str "0:65000:12") addr_a (Some (PVpn 9))) /\ describes no_v6 (str "id=0:65000:12 mpls_vpn_id=9 ip=10.0.0.1") (mkEntry (str "0:65000:12") addr_a (Some (PVpn 9))) /\
  parse_line no_v6 (str "id=1 ip=10.0.0.1 in=5 out=6") = None /\ parse_line no_v6 (str "id=1 ip=10.0.0.1 vrf=6") = None /\ parse_line no_v6 (str "id=1 ip=10.0.0.1 in=4294967296") = None.
Proof. split; [apply (parse_line_spec no_v6 no_json); vm_compute; reflexivity|]. split; [apply (parse_line_spec no_v6 no_json); vm_compute; reflexivity|]. repeat split; vm_compute; reflexivity. Qed.
Example C103_nonvacuous : rd_said (str "0:65000:12") (65000 * 4294967296 + 12) /\ rd_said (str "1:10.0.0.1:12") (281474976710656 + 167772161 * 65536 + 12) /\
  rd_said (str "2:400000:12") (2 * 281474976710656 + 400000 * 65536 + 12) /\ parse_field 90 (str "0:65536:12") = None /\ parse_field 90 (str "3:1:1") = None.
Proof. split; [apply parse_rd_spec; vm_compute; reflexivity|]. split; [apply parse_rd_spec; vm_compute; reflexivity|]. split; [apply parse_rd_spec; vm_compute; reflexivity|]. split; vm_compute; reflexivity. Qed.
Example C104_nonvacuous : let c := apply_ops (snd (files_run no_v6 no_json flat two as_is start history)) in
  enrichment_fields c addr_a 3 [(10, 7); (234, 9)] = Some [(50, 300); (ingress_rd, 65000 * 4294967296 + 12)] /\
  enrichment_fields c addr_a 3 [(10, 8)] = Some [(50, 100)].
Proof. cbn zeta. split; vm_compute; reflexivity. Qed.
