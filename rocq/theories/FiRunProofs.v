From Verif Require Import Base MapLib EnModel EnSpec EnProofs FiModel FiSpec FiTextProofs.
From Coq Require Import Permutation String List.

(* ---- one payload and the cache ---- *)
Definition at_slot (p : payload) (ip dom : N) (scope : list field) : Prop := p_ip p = ip /\ p_dom p = dom /\ p_scope p = scope.
Definition hits (p : payload) (ip dom : N) (scope : list field) (ie : N) : Prop := at_slot p ip dom scope /\ In ie (map ie_of (p_fields p)).
Lemma occurrence_in fs r f : occurrence fs r = Some f -> In (fst r) (map ie_of fs).
Proof.
  intros H. pose proof (occurrence_ie _ _ _ H) as E. unfold occurrence in H. apply nth_error_In in H. apply filter_In in H as [H _]. rewrite <- E. now apply in_map.
Qed.
Lemma hits_dec p ip dom scope ie : {hits p ip dom scope ie} + {~ hits p ip dom scope ie}.
Proof.
  unfold hits, at_slot. destruct (N.eq_dec (p_ip p) ip); [|right; tauto]. destruct (N.eq_dec (p_dom p) dom); [|right; tauto].
  destruct (scope_eqb_spec (p_scope p) scope); [|right; tauto]. destruct (in_dec N.eq_dec ie (map ie_of (p_fields p))); [left; tauto|right; tauto].
Qed.
Lemma del_one c p ip dom scope r : wf c ->
  (~ hits p ip dom scope (fst r) -> stored (apply_op c (delete_op p)) ip dom scope r = stored c ip dom scope r) /\
  (hits p ip dom scope (fst r) -> stored (apply_op c (delete_op p)) ip dom scope r = match stored c ip dom scope r with Some (w, f) => if w <=? p_weight p then None else Some (w, f) | None => None end).
Proof.
  intros Hw. destruct (op_slot c (delete_op p) ip dom scope r Hw) as [H1 H2]. unfold hits, at_slot. unfold delete_op in H1, H2 |- *. cbn [addresses] in H1, H2. remember (stored (apply_op c _) ip dom scope r) as y eqn:Heqy. clear Heqy. split.
  - intros Hn. destruct (N.eq_dec (p_ip p) ip) as [E1|E1]; [|apply H2; tauto]. destruct (N.eq_dec (p_dom p) dom) as [E2|E2]; [|apply H2; tauto].
    destruct (scope_eqb_spec (p_scope p) scope) as [E3|E3]; [|apply H2; tauto]. specialize (H1 (conj E1 (conj E2 E3))).
    inversion H1 as [? ? Hx|? ? ? ? Hx|? ? ? ? Hx|? ? ? Hx|? ? ? Hx|? Hx Hy|? Hx]; subst; cbn in Hx; try contradiction; try reflexivity. exfalso. apply Hn. tauto.
  - intros [Ha Hi]. specialize (H1 Ha).
    inversion H1 as [? ? Hx|? ? ? ? Hx|? ? ? ? Hx|? ? ? Hx Hl|? ? ? Hx Hl|? Hx Hy|? Hx]; subst; cbn in Hx; try contradiction.
    + destruct Hx as [<- _]. apply N.leb_le in Hl. now rewrite Hl.
    + destruct Hx as [<- _]. apply N.leb_gt in Hl. now rewrite Hl.
    + exfalso. apply (Hy (p_weight p)). cbn. auto.
    + reflexivity.
Qed.
Lemma up_one c p ip dom scope r : wf c ->
  (~ hits p ip dom scope (fst r) -> stored (apply_op c (upsert_op p)) ip dom scope r = stored c ip dom scope r) /\
  (hits p ip dom scope (fst r) -> stored (apply_op c (upsert_op p)) ip dom scope r =
     match occurrence (p_fields p) r, stored c ip dom scope r with
     | Some f, Some (w, f0) => if w <=? p_weight p then Some (p_weight p, f) else Some (w, f0)
     | Some f, None => Some (p_weight p, f)
     | None, x => x
     end).
Proof.
  intros Hw. destruct (op_slot c (upsert_op p) ip dom scope r Hw) as [H1 H2]. unfold hits, at_slot. unfold upsert_op in H1, H2 |- *. cbn [addresses] in H1, H2. remember (stored (apply_op c _) ip dom scope r) as y eqn:Heqy. clear Heqy. split.
  - intros Hn. destruct (N.eq_dec (p_ip p) ip) as [E1|E1]; [|apply H2; tauto]. destruct (N.eq_dec (p_dom p) dom) as [E2|E2]; [|apply H2; tauto].
    destruct (scope_eqb_spec (p_scope p) scope) as [E3|E3]; [|apply H2; tauto]. specialize (H1 (conj E1 (conj E2 E3))).
    inversion H1 as [? ? Hx|? ? ? ? Hx|? ? ? ? Hx|? ? ? Hx|? ? ? Hx|? Hx Hy|? Hx]; subst; cbn in Hx; try contradiction; try reflexivity.
    + exfalso. apply Hn. split; [tauto|]. destruct Hx as [_ Hx]. eapply occurrence_in; eauto.
    + exfalso. apply Hn. split; [tauto|]. destruct Hx as [_ Hx]. eapply occurrence_in; eauto.
  - intros [Ha Hi]. specialize (H1 Ha).
    inversion H1 as [? ? Hx|? ? ? ? Hx Hl|? ? ? ? Hx Hl|? ? ? Hx Hl|? ? ? Hx Hl|? Hx Hy|? Hx]; subst; cbn in Hx; try contradiction.
    + destruct Hx as [<- ->]. reflexivity.
    + destruct Hx as [<- ->]. apply N.leb_le in Hl. now rewrite Hl.
    + destruct Hx as [<- ->]. apply N.leb_gt in Hl. now rewrite Hl.
    + destruct (occurrence (p_fields p) r) as [f|] eqn:E; [|reflexivity]. exfalso. apply (Hx (p_weight p) f). cbn. auto.
Qed.

(* ---- sets of labelled payloads ---- *)
Section Labels.
Context {A : Type} (pay : A -> payload).
Definition sep (P : A -> Prop) : Prop :=
  forall a b ip dom scope ie, P a -> P b -> hits (pay a) ip dom scope ie -> hits (pay b) ip dom scope ie -> a = b.
Definition described (c : cache) (P : A -> Prop) : Prop :=
  forall ip dom scope r w f, stored c ip dom scope r = Some (w, f) <->
    exists a, P a /\ at_slot (pay a) ip dom scope /\ p_weight (pay a) = w /\ occurrence (p_fields (pay a)) r = Some f.
Lemma described_ext c P Q : (forall a, P a <-> Q a) -> described c P -> described c Q.
Proof. intros H D ip dom scope r w f. rewrite (D ip dom scope r w f). split; intros (a & H1 & H2); exists a; (split; [now apply H|exact H2]). Qed.
Lemma sep_sub (P Q : A -> Prop) : (forall a, P a -> Q a) -> sep Q -> sep P.
Proof. intros H S a b ip dom scope ie Ha Hb. apply S; auto. Qed.
Lemma hits_of a ip dom scope r f : at_slot (pay a) ip dom scope -> occurrence (p_fields (pay a)) r = Some f -> hits (pay a) ip dom scope (fst r).
Proof. intros H E. split; [exact H|]. eapply occurrence_in; eauto. Qed.
Lemma del_step c P a : wf c -> sep P -> P a -> described c P -> described (apply_op c (delete_op (pay a))) (fun b => P b /\ b <> a).
Proof.
  intros Hw S Pa D ip dom scope r w f. destruct (del_one c (pay a) ip dom scope r Hw) as [D1 D2].
  destruct (hits_dec (pay a) ip dom scope (fst r)) as [Hh|Hh].
  - rewrite (D2 Hh). split.
    + destruct (stored c ip dom scope r) as [[w0 f0]|] eqn:E; [|discriminate]. apply D in E as (b & Pb & Hs & Hwt & Ho).
      assert (b = a) as -> by (eapply S; eauto using hits_of). subst w0. rewrite N.leb_refl. discriminate.
    + intros (b & [Pb Hn] & Hs & _ & Ho). exfalso. apply Hn. eapply S; eauto using hits_of.
  - rewrite (D1 Hh), (D ip dom scope r w f). split.
    + intros (b & Pb & Hs & Hwt & Ho). exists b. repeat split; try apply Hs; auto. intros ->. apply Hh. eapply hits_of; eauto.
    + intros (b & [Pb _] & H). eauto.
Qed.
Lemma up_step c P a : wf c -> sep (fun b => P b \/ b = a) -> described c P -> described (apply_op c (upsert_op (pay a))) (fun b => P b \/ b = a).
Proof.
  intros Hw S D ip dom scope r w f. destruct (up_one c (pay a) ip dom scope r Hw) as [D1 D2].
  destruct (hits_dec (pay a) ip dom scope (fst r)) as [Hh|Hh].
  - rewrite (D2 Hh). assert (Only : forall b f', P b \/ b = a -> at_slot (pay b) ip dom scope -> occurrence (p_fields (pay b)) r = Some f' -> b = a).
    { intros b f' Hb Hs Ho. eapply S; eauto using hits_of. }
    destruct (occurrence (p_fields (pay a)) r) as [fa|] eqn:Ea.
    + assert (E : stored c ip dom scope r = None \/ exists f0, stored c ip dom scope r = Some (p_weight (pay a), f0)).
      { destruct (stored c ip dom scope r) as [[w0 f0]|] eqn:E; [|now left]. right. apply D in E as (b & Pb & Hs & Hwt & Ho).
        assert (b = a) as -> by (eapply Only; eauto). subst w0. eauto. }
      assert (E' : forall x, match stored c ip dom scope r with Some (w0, f0) => if w0 <=? p_weight (pay a) then Some (p_weight (pay a), fa) else Some (w0, f0) | None => Some (p_weight (pay a), fa) end = x <-> Some (p_weight (pay a), fa) = x).
      { destruct E as [ -> | (f0 & ->) ]; [tauto|]. rewrite N.leb_refl. tauto. }
      rewrite E'. split.
      * intros H. injection H as <- <-. exists a. split; [now right|]. split; [apply Hh|]. auto.
      * intros (b & Hb & Hs & Hwt & Ho). assert (b = a) as -> by (eapply Only; eauto). rewrite Hwt. rewrite Ea in Ho. injection Ho as ->. reflexivity.
    + rewrite (D ip dom scope r w f). split.
      * intros (b & Pb & H). exists b. tauto.
      * intros (b & Hb & Hs & Hwt & Ho). assert (b = a) as -> by (eapply Only; eauto). congruence.
  - rewrite (D1 Hh), (D ip dom scope r w f). split.
    + intros (b & Pb & H). exists b. tauto.
    + intros (b & [Pb| ->] & Hs & Hwt & Ho); [eauto|]. exfalso. apply Hh. eapply hits_of; eauto.
Qed.
Lemma wf_fold ops : forall c, wf c -> wf (fold_left apply_op ops c).
Proof. induction ops as [|o ops IH]; intros c H; [exact H|]. cbn. apply IH, wf_op, H. Qed.
Lemma del_fold l : forall c P, wf c -> sep P -> (forall a, In a l -> P a) -> NoDup l -> described c P ->
  described (fold_left apply_op (map (fun a => delete_op (pay a)) l) c) (fun b => P b /\ ~ In b l).
Proof.
  induction l as [|a l IH]; intros c P Hw S Hl Hn D; cbn [map fold_left].
  - eapply described_ext; [|exact D]. intros b. cbn. tauto.
  - inversion Hn as [|? ? Hx Hn']; subst. eapply described_ext; [|apply (IH (apply_op c (delete_op (pay a))) (fun b => P b /\ b <> a))].
    + intros b. cbn. split; [intros ((H1 & H2) & H3); split; [exact H1|]; intros [E|E]; [congruence|tauto]|]. intros [H1 H2]. split; [split; [exact H1|]|tauto]. intros ->. apply H2. now left.
    + now apply wf_op.
    + eapply sep_sub; [|exact S]. tauto.
    + intros b Hb. split; [apply Hl; now right|]. intros ->. tauto.
    + exact Hn'.
    + apply del_step; auto. apply Hl. now left.
Qed.
Lemma up_fold l : forall c P, wf c -> sep (fun b => P b \/ In b l) -> described c P ->
  described (fold_left apply_op (map (fun a => upsert_op (pay a)) l) c) (fun b => P b \/ In b l).
Proof.
  induction l as [|a l IH]; intros c P Hw S D; cbn [map fold_left].
  - eapply described_ext; [|exact D]. intros b. cbn. tauto.
  - eapply described_ext; [|apply (IH (apply_op c (upsert_op (pay a))) (fun b => P b \/ b = a))].
    + intros b. cbn. intuition congruence.
    + now apply wf_op.
    + eapply sep_sub; [|exact S]. intros b. cbn. intuition congruence.
    + apply up_step; auto. eapply sep_sub; [|exact S]. cbn. intuition congruence.
Qed.
End Labels.

(* ---- lines ---- *)
Lemma NoDup_app_intro {X} (l1 l2 : list X) : NoDup l1 -> NoDup l2 -> (forall x, In x l1 -> ~ In x l2) -> NoDup (l1 ++ l2).
Proof.
  induction 1 as [|x l1 Hx _ IH]; intros H2 Hd; cbn; [exact H2|]. constructor.
  - rewrite in_app_iff. intros [H|H]; [tauto|]. apply (Hd x); [now left|exact H].
  - apply IH; [exact H2|]. intros y Hy. apply Hd. now right.
Qed.
Section Env.
Variable parse_v6 : text -> option N.
Variable parse_json : text -> option payload.
Notation line_payloads := (line_payloads parse_v6 parse_json).
Notation handle_lines := (handle_lines parse_v6 parse_json).
Notation provides := (provides parse_v6 parse_json).
Notation says := (says parse_v6 parse_json).

Definition label : Type := (N * text * payload)%type.
Definition labels_of (fmt : format) (p : N) (ls : list text) : list label :=
  flat_map (fun l => match line_payloads fmt l with Some ps => map (fun y => (p, l, y)) ps | None => [] end) ls.
Lemma handle_lines_labels fmt ch p ls : handle_lines fmt ch ls = map (fun a : label => make_op ch (snd a)) (labels_of fmt p ls).
Proof.
  induction ls as [|l ls IH]; [reflexivity|]. unfold FiModel.handle_lines, labels_of in *. cbn [flat_map]. rewrite map_app. f_equal; [|exact IH].
  unfold handle_line. destruct (line_payloads fmt l); [|reflexivity]. now rewrite map_map.
Qed.
Lemma In_labels_of fmt p ls q l y : In (q, l, y) (labels_of fmt p ls) <-> q = p /\ In l ls /\ exists ps, line_payloads fmt l = Some ps /\ In y ps.
Proof.
  unfold labels_of. rewrite in_flat_map. split.
  - intros (l' & Hl & H). destruct (line_payloads fmt l') as [ps|] eqn:E; [|destruct H]. apply in_map_iff in H as (y' & H & Hy). injection H as <- <- <-. eauto.
  - intros (-> & Hl & ps & E & Hy). exists l. split; [exact Hl|]. rewrite E. apply in_map_iff. eauto.
Qed.
Lemma payloads_NoDup fmt l ps : line_payloads fmt l = Some ps -> NoDup ps.
Proof.
  destruct fmt as [ie w| |]; cbn [FiModel.line_payloads].
  - destruct (parse_line parse_v6 l) as [[e|]|]; [|intros H; injection H as <-; constructor|discriminate].
    destruct (parse_field ie (e_id e)) as [f|]; [|discriminate]. intros H. injection H as <-. destruct (e_scope e) as [[i|i|i]|]; cbn [entry_payloads]; repeat constructor; cbn; try tauto.
    intros [H|H]; [|exact H]. injection H as H _. discriminate.
  - destruct (parse_json l) as [p|]; [|discriminate]. intros H. injection H as <-. destruct (is_nil (p_fields p)); repeat constructor. cbn. tauto.
  - discriminate.
Qed.
Lemma labels_NoDup fmt p ls : NoDup ls -> NoDup (labels_of fmt p ls).
Proof.
  induction 1 as [|l ls Hl _ IH]; [constructor|]. unfold labels_of in *. cbn [flat_map]. apply NoDup_app_intro; auto.
  - destruct (line_payloads fmt l) as [ps|] eqn:E; [|constructor]. apply FinFun.Injective_map_NoDup; [|eapply payloads_NoDup; eauto]. intros x y H. now injection H.
  - intros [[q l'] y] H1 H2. apply In_labels_of in H2 as (_ & H2 & _). destruct (line_payloads fmt l) as [ps|]; [|destruct H1]. apply in_map_iff in H1 as (y' & H1 & _). injection H1 as _ <- _. tauto.
Qed.

(* labels of the lines stored by the processor *)
Definition current (cfg : list (N * format)) (lines : list (N * list text)) (a : label) : Prop :=
  let '(p, l, y) := a in exists ls fmt ps, mget N.eqb p lines = Some ls /\ In l ls /\ mget N.eqb p cfg = Some fmt /\ line_payloads fmt l = Some ps /\ In y ps.
Definition lines_at (lines : list (N * list text)) (p : N) : list text := match mget N.eqb p lines with Some ls => ls | None => [] end.
Lemma current_alt cfg lines p l y : current cfg lines (p, l, y) <-> exists fmt, mget N.eqb p cfg = Some fmt /\ In (p, l, y) (labels_of fmt p (lines_at lines p)).
Proof.
  unfold current, lines_at. split.
  - intros (ls & fmt & ps & -> & Hl & Hf & E & Hy). exists fmt. split; [exact Hf|]. apply In_labels_of. eauto.
  - intros (fmt & Hf & H). apply In_labels_of in H as (_ & Hl & ps & E & Hy). destruct (mget N.eqb p lines) as [ls|]; [|destruct Hl]. eauto 10.
Qed.
(* the lines of one path are replaced *)
Lemma transition cfg lines lines' p fmt R A c :
  mget N.eqb p cfg = Some fmt -> (forall q, q <> p -> lines_at lines' q = lines_at lines q) ->
  NoDup R -> (forall l, In l R <-> In l (lines_at lines p) /\ ~ In l (lines_at lines' p)) ->
  (forall l, In l A <-> In l (lines_at lines' p) /\ ~ In l (lines_at lines p)) ->
  wf c -> sep snd (current cfg lines) -> sep snd (current cfg lines') -> described snd c (current cfg lines) ->
  described snd (fold_left apply_op (handle_lines fmt Removed R ++ handle_lines fmt Added A) c) (current cfg lines').
Proof.
  intros Hf Hq HR RR AA Hw S S' D. rewrite fold_left_app, (handle_lines_labels fmt Removed p), (handle_lines_labels fmt Added p). cbn [make_op].
  assert (Hall : forall q l y, In (q, l, y) (labels_of fmt p R) -> current cfg lines (q, l, y)).
  { intros q l y H. apply In_labels_of in H as (-> & Hl & ps & E & Hy). apply current_alt. exists fmt. split; [exact Hf|]. apply In_labels_of. apply RR in Hl as [Hl _]. eauto. }
  assert (D1 := del_fold snd (labels_of fmt p R) c (current cfg lines) Hw S (fun a => match a with (q, l, y) => Hall q l y end) (labels_NoDup _ _ _ HR) D).
  set (c1 := fold_left apply_op (map (fun a : label => delete_op (snd a)) (labels_of fmt p R)) c) in *.
  assert (Heq : forall a, (current cfg lines a /\ ~ In a (labels_of fmt p R)) \/ In a (labels_of fmt p A) <-> current cfg lines' a).
  { intros [[q l] y]. rewrite !current_alt, !In_labels_of. split.
    - intros [[(fmt' & Hf' & H) Hn]|(-> & Hl & ps & E & Hy)].
      + exists fmt'. split; [exact Hf'|]. apply In_labels_of in H as (_ & Hl & ps & E & Hy). apply In_labels_of. split; [reflexivity|].
        destruct (N.eq_dec q p) as [->|Hqp]; [|rewrite Hq by exact Hqp; eauto].
        rewrite Hf in Hf'. injection Hf' as <-. destruct (in_dec (list_eq_dec N.eq_dec) l (lines_at lines' p)) as [Hi|Hi]; [eauto|].
        exfalso. apply Hn. split; [reflexivity|]. split; [|eauto]. apply RR. auto.
      + exists fmt. split; [exact Hf|]. apply In_labels_of. apply AA in Hl as [Hl _]. eauto.
    - intros (fmt' & Hf' & H). apply In_labels_of in H as (_ & Hl & ps & E & Hy). destruct (N.eq_dec q p) as [->|Hqp].
      + rewrite Hf in Hf'. injection Hf' as <-. destruct (in_dec (list_eq_dec N.eq_dec) l (lines_at lines p)) as [Hi|Hi].
        * left. split; [exists fmt; split; [exact Hf|]; apply In_labels_of; eauto|]. intros (_ & H & _). apply RR in H as [_ H]. tauto.
        * right. split; [reflexivity|]. split; [apply AA; auto|eauto].
      + left. split; [exists fmt'; split; [exact Hf'|]; apply In_labels_of; rewrite <- Hq by exact Hqp; eauto|]. intros (H & _). congruence. }
  eapply described_ext; [exact Heq|]. apply up_fold; auto.
  - apply wf_fold. exact Hw.
  - eapply sep_sub; [|exact S']. intros a. apply Heq.
Qed.

(* ---- files ---- *)
Hypothesis json_nil : parse_json [] = None.
Lemma blank_payloads fmt ps y : line_payloads fmt [] = Some ps -> ~ In y ps.
Proof.
  destruct fmt as [ie w| |]; cbn [FiModel.line_payloads].
  - change (parse_line parse_v6 []) with (Some (@None pentry)). intros H. injection H as <-. exact (fun x => x).
  - rewrite json_nil. discriminate.
  - discriminate.
Qed.
Lemma payload_eta y : y = mkPayload (p_ip y) (p_dom y) (p_scope y) (p_weight y) (p_fields y).
Proof. now destruct y. Qed.
(* what the processor holds, against what the files hold *)
Definition files_ok (cfg : list (N * format)) (files : N -> disk) (s : fstate) : Prop :=
  forall p,
  (mget N.eqb p (f_lines s) = None -> forall fmt t, mget N.eqb p cfg = Some fmt -> files p <> Text t) /\
  (forall ls, mget N.eqb p (f_lines s) = Some ls -> exists t fmt, files p = Text t /\ ls = file_lines t /\ mget N.eqb p (f_watched s) = Some fmt) /\
  (forall fmt, mget N.eqb p (f_watched s) = Some fmt -> mget N.eqb p cfg = Some fmt).
Lemma cfg_get (cfg : list (N * format)) p fmt : NoDup (map fst cfg) -> (mget N.eqb p cfg = Some fmt <-> In (p, fmt) cfg).
Proof. intros H. split; [apply mget_In, N.eqb_spec|apply In_mget; [apply N.eqb_spec|exact H]]. Qed.
Lemma current_says cfg files s : NoDup (map fst cfg) -> files_ok cfg files s -> forall p l y,
  current cfg (f_lines s) (p, l, y) <-> says cfg files p l (p_ip y) (p_dom y) (p_scope y) (p_weight y) (p_fields y).
Proof.
  intros Hn Hok p l y. unfold current, FiSpec.says. destruct (Hok p) as (H1 & H2 & H3). split.
  - intros (ls & fmt & ps & Hl & Hi & Hf & E & Hy). destruct (H2 _ Hl) as (t & fmt' & Ht & -> & _). exists fmt, t. apply cfg_get in Hf; [|exact Hn].
    split; [exact Hf|]. split; [exact Ht|]. split.
    + apply file_lines_holds; [|exact Hi]. intros ->. eapply blank_payloads; eauto.
    + apply line_payloads_provides. rewrite <- payload_eta. eauto.
  - intros (fmt & t & Hf & Ht & Hl & Hp). apply cfg_get in Hf; [|exact Hn]. apply line_payloads_provides in Hp as (ps & E & Hy). rewrite <- payload_eta in Hy.
    destruct (mget N.eqb p (f_lines s)) as [ls|] eqn:El; [|exfalso; eapply H1; eauto].
    destruct (H2 _ eq_refl) as (t' & fmt' & Ht' & -> & _). rewrite Ht in Ht'. injection Ht' as <-. exists (file_lines t), fmt, ps. repeat split; auto.
    apply file_lines_holds; [destruct Hl as [H _]; exact H|exact Hl].
Qed.
Lemma unambiguous_sep cfg files s : NoDup (map fst cfg) -> files_ok cfg files s -> unambiguous parse_v6 parse_json cfg files -> sep snd (current cfg (f_lines s)).
Proof.
  intros Hn Hok Hu [[p l] y] [[q l'] y'] ip dom scope ie Ha Hb [Hh Hi] [Hh' Hi']. apply (current_says _ _ _ Hn Hok) in Ha, Hb. cbn [snd] in *.
  destruct Hh as (E1 & E2 & E3), Hh' as (E1' & E2' & E3'). rewrite E1, E2, E3 in Ha. rewrite E1', E2', E3' in Hb.
  destruct (Hu _ _ _ _ _ _ _ _ _ _ _ _ Ha Hb Hi Hi') as (-> & -> & Ew & Ef).
  f_equal. rewrite (payload_eta y), (payload_eta y'). rewrite E1, E2, E3, E1', E2', E3', Ew, Ef. reflexivity.
Qed.
Lemma described_agrees cfg files s c : NoDup (map fst cfg) -> files_ok cfg files s -> described snd c (current cfg (f_lines s)) -> agrees parse_v6 parse_json cfg files c.
Proof.
  intros Hn Hok D ip dom scope r w f. rewrite (D ip dom scope r w f). split.
  - intros ([[p l] y] & Ha & (E1 & E2 & E3) & Ew & Ho). cbn [snd] in *. apply (current_says _ _ _ Hn Hok) in Ha. rewrite E1, E2, E3, Ew in Ha. eauto.
  - intros (p & l & fs & Hs & Ho). exists (p, l, mkPayload ip dom scope w fs). split; [now apply (current_says _ _ _ Hn Hok)|]. repeat split; auto.
Qed.

Definition update (files : N -> disk) (p : N) (d : disk) : N -> disk := fun q => if q =? p then d else files q.
(* Q: the files were unambiguous throughout *)
Variable Q : Prop.
(* good: the state and the cache reflect the files *)
Definition good (cfg : list (N * format)) (files : N -> disk) (s : fstate) (c : cache) : Prop :=
  files_ok cfg files s /\ wf c /\ (Q -> described snd c (current cfg (f_lines s))).

Lemma lines_at_get lines p : lines_at lines p = match mget N.eqb p lines with Some ls => ls | None => [] end.
Proof. reflexivity. Qed.
Lemma file_lines_NoDup t : NoDup (file_lines t).
Proof. apply dedup_NoDup. Qed.
Lemma lines_NoDup cfg files s p : files_ok cfg files s -> NoDup (lines_at (f_lines s) p).
Proof.
  intros Hok. unfold lines_at. destruct (mget N.eqb p (f_lines s)) as [ls|] eqn:E; [|constructor]. destruct (Hok p) as (_ & H & _). destruct (H _ E) as (t & _ & _ & -> & _). apply file_lines_NoDup.
Qed.
Lemma purge_good cfg files s c p fmt order d : NoDup (map fst cfg) -> walks_all order -> mget N.eqb p (f_watched s) = Some fmt -> (forall t, d <> Text t) ->
  (Q -> unambiguous parse_v6 parse_json cfg files) -> (Q -> unambiguous parse_v6 parse_json cfg (update files p d)) ->
  good cfg files s c ->
  good cfg (update files p d) (fst (purge parse_v6 parse_json fmt order p s)) (fold_left apply_op (snd (purge parse_v6 parse_json fmt order p s)) c) /\
  f_dirs (fst (purge parse_v6 parse_json fmt order p s)) = f_dirs s.
Proof.
  intros Hn Ho Hp Hd Hu Hu' (Hok & Hw & D). unfold purge. cbn [fst snd f_lines f_dirs f_watched]. split; [|reflexivity].
  assert (Hok' : files_ok cfg (update files p d) (mkF (f_watched s) (f_dirs s) (f_failing s) (mrem N.eqb p (f_lines s)))).
  { intros q. destruct (Hok q) as (H1 & H2 & H3). cbn [f_lines f_watched]. rewrite (mget_mrem _ N.eqb_spec). unfold update. destruct (N.eqb_spec q p) as [->|Hq].
    - split; [intros _ fmt' t _; apply Hd|]. split; [discriminate|exact H3].
    - auto. }
  destruct (Hok p) as (_ & _ & H3). apply H3 in Hp as Hf.
  split; [exact Hok'|]. split; [now apply wf_fold|]. cbn [f_lines].
  assert (E : match mget N.eqb p (f_lines s) with Some ls => handle_lines fmt Removed (order ls) | None => [] end = handle_lines fmt Removed (order (lines_at (f_lines s) p)) ++ handle_lines fmt Added []).
  { unfold lines_at. rewrite app_nil_r. destruct (mget N.eqb p (f_lines s)); [reflexivity|]. pose proof (Ho []) as Hp'. apply Permutation_sym, Permutation_nil in Hp'. now rewrite Hp'. }
  rewrite E. intros HQ. specialize (D HQ). apply (transition cfg (f_lines s) _ p); auto.
  - intros q Hq. unfold lines_at. rewrite (mget_mrem _ N.eqb_spec). destruct (N.eqb_spec q p); [congruence|reflexivity].
  - eapply Permutation_NoDup; [apply Permutation_sym, Ho|]. eapply lines_NoDup; eauto.
  - intros l. assert (Hx : lines_at (mrem N.eqb p (f_lines s)) p = []) by (unfold lines_at; now rewrite (mget_mrem _ N.eqb_spec), N.eqb_refl). rewrite Hx.
    split; [intros H; split; [eapply Permutation_in; [apply Ho|exact H]|exact (fun x => x)]|]. intros [H _]. eapply Permutation_in; [apply Permutation_sym, Ho|exact H].
  - intros l. assert (Hx : lines_at (mrem N.eqb p (f_lines s)) p = []) by (unfold lines_at; now rewrite (mget_mrem _ N.eqb_spec), N.eqb_refl). rewrite Hx. cbn. tauto.
  - eapply unambiguous_sep; eauto.
  - apply (unambiguous_sep cfg (update files p d) (mkF (f_watched s) (f_dirs s) (f_failing s) (mrem N.eqb p (f_lines s)))); auto.
Qed.
Lemma files_ok_same cfg files s w ds fl : files_ok cfg files s -> (forall p fmt, mget N.eqb p w = Some fmt -> mget N.eqb p cfg = Some fmt) ->
  (forall p, mget N.eqb p (f_watched s) <> None -> mget N.eqb p w <> None) -> files_ok cfg files (mkF w ds fl (f_lines s)).
Proof.
  intros Hok Hw Hw' p. destruct (Hok p) as (H1 & H2 & H3). cbn [f_lines f_watched]. split; [exact H1|]. split; [|apply Hw].
  intros ls Hl. destruct (H2 _ Hl) as (t & fmt & Ht & Hls & Hwt). specialize (Hw' p). destruct (mget N.eqb p w) as [fmt'|] eqn:E; [eauto|]. exfalso. apply Hw'; congruence.
Qed.
Lemma change_good cfg files s c p fmt order d : NoDup (map fst cfg) -> walks_all order -> mget N.eqb p (f_watched s) = Some fmt ->
  (Q -> unambiguous parse_v6 parse_json cfg files) -> (Q -> unambiguous parse_v6 parse_json cfg (update files p d)) ->
  good cfg files s c ->
  good cfg (update files p d) (fst (handle_change parse_v6 parse_json order p d s)) (fold_left apply_op (snd (handle_change parse_v6 parse_json order p d s)) c) /\
  f_dirs (fst (handle_change parse_v6 parse_json order p d s)) = f_dirs s.
Proof.
  intros Hn Ho Hp Hu Hu' Hg. pose proof Hg as (Hok & Hw & D). unfold handle_change. rewrite Hp.
  assert (Hpurge : (forall t, d <> Text t) ->
    good cfg (update files p d) (fst (purge parse_v6 parse_json fmt order p (mkF (f_watched s) (f_dirs s) (insert_n p (f_failing s)) (f_lines s))))
      (fold_left apply_op (snd (purge parse_v6 parse_json fmt order p (mkF (f_watched s) (f_dirs s) (insert_n p (f_failing s)) (f_lines s)))) c) /\
    f_dirs (fst (purge parse_v6 parse_json fmt order p (mkF (f_watched s) (f_dirs s) (insert_n p (f_failing s)) (f_lines s)))) = f_dirs s).
  { intros Hd. apply (purge_good cfg files (mkF (f_watched s) (f_dirs s) (insert_n p (f_failing s)) (f_lines s)) c); auto. }
  destruct d as [| |t]; [apply Hpurge; discriminate|apply Hpurge; discriminate|]. clear Hpurge. unfold process_text. cbn [fst snd f_dirs f_lines]. split; [|reflexivity].
  set (s' := mkF (f_watched s) (f_dirs s) (filter (fun q => negb (q =? p)) (f_failing s)) (mset N.eqb p (file_lines t) (f_lines s))).
  assert (Hok' : files_ok cfg (update files p (Text t)) s').
  { intros q. destruct (Hok q) as (H1 & H2 & H3). cbn [f_lines f_watched s']. rewrite (mget_mset _ N.eqb_spec). unfold update. destruct (N.eqb_spec q p) as [->|Hq].
    - split; [discriminate|]. split; [|exact H3]. intros ls H. injection H as <-. eauto.
    - auto. }
  destruct (Hok p) as (_ & _ & H3). apply H3 in Hp as Hf. split; [exact Hok'|]. split; [now apply wf_fold|].
  assert (Hx : lines_at (f_lines s') p = file_lines t) by (unfold lines_at; cbn [s' f_lines]; now rewrite (mget_mset _ N.eqb_spec), N.eqb_refl).
  intros HQ. specialize (D HQ). apply (transition cfg (f_lines s) _ p); auto.
  - intros q Hq. unfold lines_at. cbn [s' f_lines]. rewrite (mget_mset _ N.eqb_spec). destruct (N.eqb_spec q p); [congruence|reflexivity].
  - eapply Permutation_NoDup; [apply Permutation_sym, Ho|]. destruct (mget N.eqb p (f_lines s)) as [ls|] eqn:E; [|constructor].
    apply difference_NoDup. pose proof (lines_NoDup _ _ _ p Hok) as H. unfold lines_at in H. now rewrite E in H.
  - intros l. rewrite Hx. unfold lines_at. assert (Hpi : forall ls, In l (order ls) <-> In l ls) by (intros ls; split; intros H; [eapply Permutation_in; [apply Ho|exact H]|eapply Permutation_in; [apply Permutation_sym, Ho|exact H]]).
    rewrite Hpi. destruct (mget N.eqb p (f_lines s)) as [ls|]; [apply difference_In|]. cbn. tauto.
  - intros l. rewrite Hx. unfold lines_at. assert (Hpi : forall ls, In l (order ls) <-> In l ls) by (intros ls; split; intros H; [eapply Permutation_in; [apply Ho|exact H]|eapply Permutation_in; [apply Permutation_sym, Ho|exact H]]).
    rewrite Hpi. destruct (mget N.eqb p (f_lines s)) as [ls|]; [apply difference_In|]. cbn. tauto.
  - eapply unambiguous_sep; eauto.
  - eapply unambiguous_sep; eauto.
Qed.

(* ---- the whole actor ---- *)
Variable parent : N -> N.
Notation add_file := (add_file parse_v6 parse_json parent).
Lemma good_ext cfg files files' s c : (forall p, files' p = files p) -> good cfg files s c -> good cfg files' s c.
Proof. intros E (Hok & H). split; [|exact H]. intros p. destruct (Hok p) as (H1 & H2 & H3). rewrite E. auto. Qed.
Lemma unamb_ext cfg files files' : (forall p, files' p = files p) -> (Q -> unambiguous parse_v6 parse_json cfg files) -> Q -> unambiguous parse_v6 parse_json cfg files'.
Proof.
  intros E H0 HQ p l ip dom scope w fs p' l' w' fs' ie (fmt & t & H1 & H2 & H3) (fmt' & t' & H1' & H2' & H3'). pose proof (H0 HQ) as H. rewrite E in H2, H2'.
  apply (H p l ip dom scope w fs p' l' w' fs' ie); [exists fmt, t|exists fmt', t']; auto.
Qed.
Lemma update_same (files : N -> disk) p q : update files p (files p) q = files q.
Proof. unfold update. now destruct (N.eqb_spec q p) as [->|]. Qed.
Lemma add_file_good cfg files s c p fmt order d : NoDup (map fst cfg) -> walks_all order -> mget N.eqb p cfg = Some fmt -> mget N.eqb p (f_watched s) = None ->
  (Q -> unambiguous parse_v6 parse_json cfg files) -> (Q -> unambiguous parse_v6 parse_json cfg (update files p d)) ->
  good cfg files s c ->
  good cfg (update files p d) (fst (add_file order p fmt d s)) (fold_left apply_op (snd (add_file order p fmt d s)) c) /\
  (forall x, In x (f_dirs (fst (add_file order p fmt d s))) <-> In x (f_dirs s) \/ (d <> Missing /\ x = parent p)) /\
  (forall q, mget N.eqb q (f_watched (fst (add_file order p fmt d s))) <> None -> mget N.eqb q (f_watched s) <> None \/ q = p).
Proof.
  intros Hn Ho Hf Hp Hu Hu' Hg. pose proof Hg as (Hok & Hw & D). unfold FiModel.add_file.
  assert (Hl : mget N.eqb p (f_lines s) = None). { destruct (mget N.eqb p (f_lines s)) as [ls|] eqn:E; [|reflexivity]. destruct (Hok p) as (_ & H & _). destruct (H _ E) as (t & fmt' & _ & _ & H'). congruence. }
  assert (Hadd : d <> Missing ->
    let s1 := mkF (mset N.eqb p fmt (f_watched s)) (insert_n (parent p) (f_dirs s)) (f_failing s) (f_lines s) in
    good cfg (update files p d) (fst (handle_change parse_v6 parse_json order p d s1)) (fold_left apply_op (snd (handle_change parse_v6 parse_json order p d s1)) c) /\
    (forall x, In x (f_dirs (fst (handle_change parse_v6 parse_json order p d s1))) <-> In x (f_dirs s) \/ (d <> Missing /\ x = parent p)) /\
    (forall q, mget N.eqb q (f_watched (fst (handle_change parse_v6 parse_json order p d s1))) <> None -> mget N.eqb q (f_watched s) <> None \/ q = p)).
  { intros Hd s1. assert (Hg1 : good cfg files s1 c).
    { split; [|split; [exact Hw|exact D]]. apply files_ok_same; auto.
      - intros q fmt'. rewrite (mget_mset _ N.eqb_spec). destruct (N.eqb_spec q p) as [->|]; [congruence|apply (Hok q)].
      - intros q. rewrite (mget_mset _ N.eqb_spec). destruct (N.eqb_spec q p); [discriminate|auto]. }
    assert (Hw1 : mget N.eqb p (f_watched s1) = Some fmt) by (cbn [s1 f_watched]; now rewrite (mget_mset _ N.eqb_spec), N.eqb_refl).
    destruct (change_good cfg files s1 c p fmt order d Hn Ho Hw1 Hu Hu' Hg1) as [G1 G2]. split; [exact G1|]. split.
    - intros x. rewrite G2. cbn [s1 f_dirs]. unfold insert_n. destruct (existsb (N.eqb (parent p)) (f_dirs s)) eqn:Ee.
      + apply existsb_ies in Ee. split; [tauto|]. intros [H|[_ ->]]; assumption.
      + cbn [In]. split; [intros [<-|H]; tauto|]. intros [H|[_ ->]]; tauto.
    - intros q. unfold handle_change. rewrite Hw1. assert (Hs1 : mget N.eqb q (f_watched s1) <> None -> mget N.eqb q (f_watched s) <> None \/ q = p).
      { cbn [s1 f_watched]. rewrite (mget_mset _ N.eqb_spec). destruct (N.eqb_spec q p); auto. }
      destruct d as [| |t]; cbn [purge process_text fst snd f_watched]; exact Hs1. }
  destruct d as [| |t]; [|apply Hadd; discriminate|apply Hadd; discriminate]. cbn [fst snd fold_left]. split.
  - split; [|auto]. intros q. destruct (Hok q) as (H1 & H2 & H3). unfold update. destruct (N.eqb_spec q p) as [->|]; [|auto]. split; [discriminate|]. split; [|exact H3].
    intros ls E. congruence.
  - split; [|auto]. intros x. split; [tauto|]. intros [H|[H _]]; [exact H|congruence].
Qed.
Lemma sub_unambiguous cfg files files' : (forall p, files' p = files p \/ files' p = Missing) -> (Q -> unambiguous parse_v6 parse_json cfg files) -> Q -> unambiguous parse_v6 parse_json cfg files'.
Proof.
  intros E H0 HQ p l ip dom scope w fs p' l' w' fs' ie (fmt & t & H1 & H2 & H3) (fmt' & t' & H1' & H2' & H3'). pose proof (H0 HQ) as H.
  apply (H p l ip dom scope w fs p' l' w' fs' ie); [exists fmt, t|exists fmt', t']; (split; [assumption|split; [|assumption]]).
  - destruct (E p); congruence.
  - destruct (E p'); congruence.
Qed.
Lemma fold_app2 o1 o2 (c : cache) : fold_left apply_op (o1 ++ o2) c = fold_left apply_op o2 (fold_left apply_op o1 c).
Proof. apply fold_left_app. Qed.
Lemma setup_good cfg order disk0 : NoDup (map fst cfg) -> walks_all order -> (Q -> unambiguous parse_v6 parse_json cfg disk0) ->
  forall rest done s c, cfg = done ++ rest -> (forall q, mget N.eqb q (f_watched s) <> None -> In q (map fst done)) ->
  good cfg (fun q => if existsb (N.eqb q) (map fst done) then disk0 q else Missing) s c ->
  let r := setup parse_v6 parse_json parent order disk0 rest s in
  good cfg (fun q => if existsb (N.eqb q) (map fst cfg) then disk0 q else Missing) (fst r) (fold_left apply_op (snd r) c) /\
  (forall x, In x (f_dirs (fst r)) <-> In x (f_dirs s) \/ exists p fmt, In (p, fmt) rest /\ disk0 p <> Missing /\ x = parent p).
Proof.
  intros Hn Ho Hu. induction rest as [|[p fmt] rest IH]; intros done s c Hc Hwd Hg; cbn [setup].
  - cbn [fst snd fold_left]. rewrite app_nil_r in Hc. subst done. split; [exact Hg|]. intros x. split; [tauto|]. intros [H|(p & fmt & [] & _)]. exact H.
  - assert (Hf : mget N.eqb p cfg = Some fmt) by (apply cfg_get; [exact Hn|]; rewrite Hc; apply in_or_app; right; now left).
    assert (Hnp : ~ In p (map fst done)).
    { rewrite Hc, map_app in Hn. cbn [map fst] in Hn. intros Hi. apply NoDup_remove_2 in Hn. apply Hn. apply in_or_app. now left. }
    assert (Hpw : mget N.eqb p (f_watched s) = None) by (destruct (mget N.eqb p (f_watched s)) eqn:E; [exfalso; apply Hnp, Hwd; congruence|reflexivity]).
    set (files := fun q => if existsb (N.eqb q) (map fst done) then disk0 q else Missing) in *.
    assert (Hsub : Q -> unambiguous parse_v6 parse_json cfg files) by (eapply sub_unambiguous; [|exact Hu]; intros q; unfold files; destruct (existsb _ _); auto).
    assert (Hsub' : Q -> unambiguous parse_v6 parse_json cfg (update files p (disk0 p))).
    { eapply sub_unambiguous; [|exact Hu]. intros q. unfold update, files. destruct (N.eqb_spec q p) as [->|]; [auto|]. destruct (existsb _ _); auto. }
    destruct (add_file_good cfg files s c p fmt order (disk0 p) Hn Ho Hf Hpw Hsub Hsub' Hg) as (G1 & G2 & G3).
    destruct (add_file order p fmt (disk0 p) s) as [s1 o1]. cbn [fst snd] in G1, G2, G3.
    assert (IH' := IH (done ++ [(p, fmt)]) s1 (fold_left apply_op o1 c)). clear IH.
    destruct (setup parse_v6 parse_json parent order disk0 rest s1) as [s2 o2]. cbn [fst snd] in *. rewrite fold_app2.
    destruct IH' as [I1 I2].
    + rewrite Hc, <- app_assoc. reflexivity.
    + intros q Hq. rewrite map_app. apply in_or_app. destruct (G3 q Hq) as [H|H]; [left; auto|right; left; symmetry; exact H].
    + eapply good_ext; [|exact G1]. intros q. rewrite map_app, existsb_app. cbn [map fst existsb]. rewrite orb_false_r. unfold update, files.
      destruct (N.eqb_spec q p) as [->|]; [now rewrite orb_true_r|]. now rewrite orb_false_r.
    + split; [exact I1|]. intros x. rewrite I2, G2. split.
      * intros [[H|[H1 H2]]|(q & fmt' & H)]; [tauto| |].
        -- right. exists p, fmt. split; [now left|]. auto.
        -- right. exists q, fmt'. destruct H as [H1 H2]. split; [now right|exact H2].
      * intros [H|(q & fmt' & [H|H] & H2 & H3)]; [tauto| |].
        -- injection H as -> ->. tauto.
        -- right. eauto.
Qed.
Definition watches (cfg : list (N * format)) (s : fstate) : Prop := forall p fmt, mget N.eqb p cfg = Some fmt -> In (parent p) (f_dirs s).
Lemma update_noop cfg files s c p d : good cfg files s c -> mget N.eqb p cfg = None -> good cfg (update files p d) s c.
Proof.
  intros (Hok & H) Hp. split; [|exact H]. intros q. destruct (Hok q) as (H1 & H2 & H3). unfold update. destruct (N.eqb_spec q p) as [->|]; [|auto].
  split; [intros _ fmt t Hf; congruence|]. split; [|exact H3]. intros ls Hl. destruct (H2 _ Hl) as (t & fmt & _ & _ & Hw). apply H3 in Hw. congruence.
Qed.
Definition after_event (files : N -> disk) (v : event) : N -> disk :=
  update files (v_path v) (match v_kind v with Changed => v_disk v | Gone => Missing | Other => files (v_path v) end).
Lemma event_good cfg files s c v : NoDup (map fst cfg) -> walks_all (v_order v) -> watches cfg s ->
  (Q -> unambiguous parse_v6 parse_json cfg files) -> (Q -> unambiguous parse_v6 parse_json cfg (after_event files v)) ->
  good cfg files s c ->
  let r := world_step parse_v6 parse_json parent cfg s v in
  good cfg (after_event files v) (fst r) (fold_left apply_op (snd r) c) /\ watches cfg (fst r).
Proof.
  intros Hn Ho Hwa Hu Hu' Hg. cbn zeta. unfold world_step, handle_event. unfold after_event in *. destruct v as [k p d order]. cbn [v_path v_kind v_disk v_order] in *.
  destruct (mget N.eqb p cfg) as [fmt|] eqn:Hf.
  2:{ destruct (existsb _ _); cbn [fst snd fold_left]; (split; [now apply update_noop|exact Hwa]). }
  assert (Hd : existsb (N.eqb (parent p)) (f_dirs s) = true) by (apply existsb_ies; eapply Hwa; eauto). rewrite Hd. destruct k.
  - unfold mhas. destruct (mget N.eqb p (f_watched s)) as [fmt'|] eqn:Hp.
    + destruct (change_good cfg files s c p fmt' order d Hn Ho Hp Hu Hu' Hg) as [G1 G2]. split; [exact G1|]. intros q fq Hq. rewrite G2. eapply Hwa; eauto.
    + destruct (add_file_good cfg files s c p fmt order d Hn Ho Hf Hp Hu Hu' Hg) as (G1 & G2 & _). split; [exact G1|]. intros q fq Hq. apply G2. left. eapply Hwa; eauto.
  - destruct (mget N.eqb p (f_watched s)) as [fmt'|] eqn:Hp.
    + destruct (purge_good cfg files s c p fmt' order Missing Hn Ho Hp ltac:(discriminate) Hu Hu' Hg) as [G1 G2].
      destruct (purge parse_v6 parse_json fmt' order p s) as [s1 o1] eqn:Ep. cbn [fst snd] in *. split.
      * destruct G1 as (K1 & K2 & K3). split; [|split; assumption]. apply files_ok_same; auto. intros q fq. apply (K1 q).
      * intros q fq Hq. cbn [f_dirs]. rewrite G2. eapply Hwa; eauto.
    + cbn [fst snd fold_left]. split; [|exact Hwa]. destruct Hg as (Hok & Hw & D). split; [|split; assumption].
      assert (Hl : mget N.eqb p (f_lines s) = None). { destruct (mget N.eqb p (f_lines s)) as [ls|] eqn:E; [|reflexivity]. destruct (Hok p) as (_ & H & _). destruct (H _ E) as (t & fmt' & _ & _ & H'). congruence. }
      intros q. destruct (Hok q) as (H1 & H2 & H3). cbn [f_lines f_watched]. unfold update. destruct (N.eqb_spec q p) as [->|]; [|auto].
      split; [discriminate|]. split; [|exact H3]. intros ls E. congruence.
  - cbn [fst snd fold_left]. split; [|exact Hwa]. eapply good_ext; [|exact Hg]. intros q. apply update_same.
Qed.
Lemma after_event_content files v vs q : content_after (after_event files v q) q vs = content_after (files q) q (v :: vs).
Proof.
  cbn [content_after]. unfold after_event, update. rewrite N.eqb_sym. destruct (N.eqb_spec (v_path v) q) as [E|]; [|reflexivity]. now subst.
Qed.
Lemma world_good cfg vs : forall files s c, NoDup (map fst cfg) -> Forall (fun v => walks_all (v_order v)) vs -> watches cfg s ->
  (forall k, Q -> unambiguous parse_v6 parse_json cfg (fun p => content_after (files p) p (firstn k vs))) ->
  good cfg files s c ->
  good cfg (fun p => content_after (files p) p vs) (fst (world_run parse_v6 parse_json parent cfg s vs)) (fold_left apply_op (snd (world_run parse_v6 parse_json parent cfg s vs)) c) /\
  watches cfg (fst (world_run parse_v6 parse_json parent cfg s vs)).
Proof.
  induction vs as [|v vs IH]; intros files s c Hn Ho Hwa Hu Hg; cbn [world_run].
  - split; [exact Hg|exact Hwa].
  - inversion Ho as [|? ? Hov Hovs]; subst.
    assert (Hu0 : Q -> unambiguous parse_v6 parse_json cfg files) by exact (Hu O).
    assert (Hu1 : Q -> unambiguous parse_v6 parse_json cfg (after_event files v)).
    { eapply unamb_ext; [|exact (Hu 1%nat)]. intros p. exact (after_event_content files v [] p). }
    destruct (event_good cfg files s c v Hn Hov Hwa Hu0 Hu1 Hg) as [G1 G2].
    destruct (world_step parse_v6 parse_json parent cfg s v) as [s1 o1]. cbn [fst snd] in G1, G2.
    specialize (IH (after_event files v) s1 (fold_left apply_op o1 c) Hn Hovs G2).
    destruct (world_run parse_v6 parse_json parent cfg s1 vs) as [s2 o2]. cbn [fst snd] in *. rewrite fold_app2.
    destruct IH as [I1 I2].
    + intros k. eapply unamb_ext; [|exact (Hu (S k))]. intros p. cbn [firstn]. apply after_event_content.
    + exact G1.
    + split; [|exact I2]. eapply good_ext; [|exact I1]. intros p. symmetry. apply after_event_content.
Qed.
Lemma files_run_good cfg order disk0 vs : NoDup (map fst cfg) -> walks_all order -> Forall (fun v => walks_all (v_order v)) vs -> all_watched parent cfg disk0 ->
  (forall k, Q -> unambiguous parse_v6 parse_json cfg (fun p => content_after (disk0 p) p (firstn k vs))) ->
  good cfg (fun p => content_after (disk0 p) p vs) (fst (files_run parse_v6 parse_json parent cfg order disk0 vs)) (apply_ops (snd (files_run parse_v6 parse_json parent cfg order disk0 vs))) /\
  watches cfg (fst (files_run parse_v6 parse_json parent cfg order disk0 vs)).
Proof.
  intros Hn Ho Hov Ha Hu. unfold files_run, apply_ops.
  assert (Hu0 : Q -> unambiguous parse_v6 parse_json cfg disk0) by exact (Hu O).
  assert (Hg0 : good cfg (fun q => if existsb (N.eqb q) (map fst (@nil (N * format))) then disk0 q else Missing) files_new []).
  { split; [|split; [split; constructor|]].
    - intros q. cbn. split; [discriminate|]. split; discriminate.
    - intros _ ip dom scope r w f. cbn. split; [discriminate|]. intros ([[p l] y] & (ls & fmt & ps & H & _) & _). discriminate. }
  destruct (setup_good cfg order disk0 Hn Ho Hu0 cfg [] files_new [] eq_refl ltac:(cbn; intros q H; congruence) Hg0) as [G1 G2].
  destruct (setup parse_v6 parse_json parent order disk0 cfg files_new) as [s1 o1]. cbn [fst snd] in G1, G2.
  assert (Hwa : watches cfg s1).
  { intros p fmt Hp. apply cfg_get in Hp; [|exact Hn]. destruct (Ha _ _ Hp) as (p' & fmt' & Hp' & Hpar & Hd). apply G2. right. exists p', fmt'. auto. }
  assert (G1' : good cfg disk0 s1 (fold_left apply_op o1 [])).
  { destruct G1 as (Hok & H). split; [|exact H]. intros q. destruct (Hok q) as (K1 & K2 & K3).
    assert (Hc : forall fmt, mget N.eqb q cfg = Some fmt -> existsb (N.eqb q) (map fst cfg) = true).
    { intros fmt Hq. apply existsb_ies. apply cfg_get in Hq; [|exact Hn]. apply in_map_iff. exists (q, fmt). auto. }
    split; [|split; [|exact K3]].
    - intros Hl fmt t Hq. specialize (K1 Hl fmt t Hq). now rewrite (Hc _ Hq) in K1.
    - intros ls Hl. destruct (K2 _ Hl) as (t & fmt & Ht & Hls & Hq). rewrite (Hc _ (K3 _ Hq)) in Ht. eauto. }
  pose proof (world_good cfg vs disk0 s1 (fold_left apply_op o1 []) Hn Hov Hwa Hu G1') as G.
  destruct (world_run parse_v6 parse_json parent cfg s1 vs) as [s2 o2]. cbn [fst snd] in *. rewrite fold_app2. exact G.
Qed.
(* what one event sends *)
Lemma step_labels cfg lines lines' p fmt R A :
  mget N.eqb p cfg = Some fmt -> (forall q, q <> p -> lines_at lines' q = lines_at lines q) -> NoDup R -> NoDup A ->
  (forall l, In l R <-> In l (lines_at lines p) /\ ~ In l (lines_at lines' p)) ->
  (forall l, In l A <-> In l (lines_at lines' p) /\ ~ In l (lines_at lines p)) ->
  (forall a, In a (labels_of fmt p R) <-> current cfg lines a /\ ~ current cfg lines' a) /\ (forall a, In a (labels_of fmt p A) <-> current cfg lines' a /\ ~ current cfg lines a).
Proof.
  intros Hf Hq _ _ RR AA.
  assert (H : forall X Y lx ly, (forall q, q <> p -> lines_at ly q = lines_at lx q) -> (forall l, In l X <-> In l (lines_at lx p) /\ ~ In l (lines_at ly p)) -> Y = ly ->
    forall a, In a (labels_of fmt p X) <-> current cfg lx a /\ ~ current cfg ly a).
  { intros X Y lx ly Hl HX _ [[q l] y]. rewrite !current_alt, In_labels_of, HX. split.
    - intros (-> & [Hi Hn] & ps & E & Hy). split.
      + exists fmt. split; [exact Hf|]. apply In_labels_of. eauto.
      + intros (fmt' & Hf' & H). apply In_labels_of in H as (_ & H & _). tauto.
    - intros [(fmt' & Hf' & H) Hn]. apply In_labels_of in H as (_ & Hi & ps & E & Hy). destruct (N.eq_dec q p) as [->|Hqp].
      + rewrite Hf in Hf'. injection Hf' as <-. split; [reflexivity|]. split; [|eauto]. split; [exact Hi|]. intros Hi'. apply Hn. exists fmt. split; [exact Hf|]. apply In_labels_of. eauto.
      + exfalso. apply Hn. exists fmt'. split; [exact Hf'|]. apply In_labels_of. rewrite Hl by exact Hqp. eauto. }
  split; [apply (H R lines' lines lines'); auto|apply (H A lines lines' lines); auto]. intros q Hqp. symmetry. auto.
Qed.
Definition sends (cfg : list (N * format)) (s s' : fstate) (ops : list op) : Prop :=
  exists R A : list label, NoDup R /\ NoDup A /\
  (forall a, In a R <-> current cfg (f_lines s) a /\ ~ current cfg (f_lines s') a) /\ (forall a, In a A <-> current cfg (f_lines s') a /\ ~ current cfg (f_lines s) a) /\
  ops = map (fun a => delete_op (snd a)) R ++ map (fun a => upsert_op (snd a)) A.
Lemma sends_nothing cfg s s' : f_lines s' = f_lines s -> sends cfg s s' [].
Proof. intros E. exists [], []. rewrite E. split; [constructor|]. split; [constructor|]. split; [|split; [|reflexivity]]; intros a; cbn [In]; tauto. Qed.
Lemma sends_lines cfg s s' p fmt R A : mget N.eqb p cfg = Some fmt -> (forall q, q <> p -> lines_at (f_lines s') q = lines_at (f_lines s) q) -> NoDup R -> NoDup A ->
  (forall l, In l R <-> In l (lines_at (f_lines s) p) /\ ~ In l (lines_at (f_lines s') p)) ->
  (forall l, In l A <-> In l (lines_at (f_lines s') p) /\ ~ In l (lines_at (f_lines s) p)) ->
  sends cfg s s' (handle_lines fmt Removed R ++ handle_lines fmt Added A).
Proof.
  intros Hf Hq HR HA RR AA. destruct (step_labels cfg _ _ p fmt R A Hf Hq HR HA RR AA) as [H1 H2].
  exists (labels_of fmt p R), (labels_of fmt p A). rewrite (handle_lines_labels fmt Removed p), (handle_lines_labels fmt Added p).
  split; [now apply labels_NoDup|]. split; [now apply labels_NoDup|]. auto.
Qed.
Lemma order_In order (l : text) ls : walks_all order -> (In l (order ls) <-> In l ls).
Proof. intros Ho. split; intros H; [eapply Permutation_in; [apply Ho|exact H]|eapply Permutation_in; [apply Permutation_sym, Ho|exact H]]. Qed.
Lemma order_NoDup order (ls : list text) : walks_all order -> NoDup ls -> NoDup (order ls).
Proof. intros Ho. apply Permutation_NoDup, Permutation_sym, Ho. Qed.
Lemma purge_sends cfg files s p fmt order : files_ok cfg files s -> walks_all order -> mget N.eqb p cfg = Some fmt ->
  sends cfg s (fst (purge parse_v6 parse_json fmt order p s)) (snd (purge parse_v6 parse_json fmt order p s)).
Proof.
  intros Hok Ho Hf. unfold purge. cbn [fst snd].
  assert (E : match mget N.eqb p (f_lines s) with Some ls => handle_lines fmt Removed (order ls) | None => [] end = handle_lines fmt Removed (order (lines_at (f_lines s) p)) ++ handle_lines fmt Added []).
  { unfold lines_at. rewrite app_nil_r. destruct (mget N.eqb p (f_lines s)); [reflexivity|]. pose proof (Ho []) as Hp'. apply Permutation_sym, Permutation_nil in Hp'. now rewrite Hp'. }
  rewrite E. assert (Hx : lines_at (mrem N.eqb p (f_lines s)) p = []) by (unfold lines_at; now rewrite (mget_mrem _ N.eqb_spec), N.eqb_refl).
  apply (sends_lines cfg s _ p); cbn [f_lines]; auto.
  - intros q Hq. unfold lines_at. rewrite (mget_mrem _ N.eqb_spec). destruct (N.eqb_spec q p); [congruence|reflexivity].
  - apply order_NoDup; [exact Ho|]. eapply lines_NoDup; eauto.
  - constructor.
  - intros l. rewrite Hx, order_In by exact Ho. cbn. tauto.
  - intros l. rewrite Hx. cbn. tauto.
Qed.
Lemma change_sends cfg files s p fmt order d : files_ok cfg files s -> walks_all order -> mget N.eqb p cfg = Some fmt -> mget N.eqb p (f_watched s) = Some fmt ->
  sends cfg s (fst (handle_change parse_v6 parse_json order p d s)) (snd (handle_change parse_v6 parse_json order p d s)).
Proof.
  intros Hok Ho Hf Hp. unfold handle_change. rewrite Hp.
  assert (Hpurge : sends cfg s (fst (purge parse_v6 parse_json fmt order p (mkF (f_watched s) (f_dirs s) (insert_n p (f_failing s)) (f_lines s))))
      (snd (purge parse_v6 parse_json fmt order p (mkF (f_watched s) (f_dirs s) (insert_n p (f_failing s)) (f_lines s)))))
    by exact (purge_sends cfg files s p fmt order Hok Ho Hf).
  destruct d as [| |t]; [exact Hpurge|exact Hpurge|]. unfold process_text. cbn [fst snd].
  assert (Hx : lines_at (mset N.eqb p (file_lines t) (f_lines s)) p = file_lines t) by (unfold lines_at; now rewrite (mget_mset _ N.eqb_spec), N.eqb_refl).
  pose proof (lines_NoDup _ _ _ p Hok) as Hnd.
  apply (sends_lines cfg s _ p); cbn [f_lines]; auto.
  - intros q Hq. unfold lines_at. rewrite (mget_mset _ N.eqb_spec). destruct (N.eqb_spec q p); [congruence|reflexivity].
  - apply order_NoDup; [exact Ho|]. unfold lines_at in Hnd. destruct (mget N.eqb p (f_lines s)); [now apply difference_NoDup|constructor].
  - apply order_NoDup; [exact Ho|]. destruct (mget N.eqb p (f_lines s)); [apply difference_NoDup|]; apply file_lines_NoDup.
  - intros l. rewrite Hx, order_In by exact Ho. unfold lines_at. destruct (mget N.eqb p (f_lines s)) as [ls|]; [apply difference_In|]. cbn. tauto.
  - intros l. rewrite Hx, order_In by exact Ho. unfold lines_at. destruct (mget N.eqb p (f_lines s)) as [ls|]; [apply difference_In|]. cbn. tauto.
Qed.
Lemma event_sends cfg files s v : files_ok cfg files s -> walks_all (v_order v) ->
  sends cfg s (fst (world_step parse_v6 parse_json parent cfg s v)) (snd (world_step parse_v6 parse_json parent cfg s v)).
Proof.
  intros Hok Ho. unfold world_step, handle_event. destruct v as [k p d order]. cbn [v_path v_kind v_disk v_order] in *.
  destruct (existsb _ _); [|now apply sends_nothing]. destruct (mget N.eqb p cfg) as [fmt|] eqn:Hf; [|now apply sends_nothing]. destruct k.
  - unfold mhas. destruct (mget N.eqb p (f_watched s)) as [fmt'|] eqn:Hp.
    + assert (Hp' : mget N.eqb p cfg = Some fmt') by (apply (Hok p); exact Hp). rewrite Hf in Hp'. injection Hp' as <-. eapply change_sends; eauto.
    + assert (Ha : d <> Missing -> let s1 := mkF (mset N.eqb p fmt (f_watched s)) (insert_n (parent p) (f_dirs s)) (f_failing s) (f_lines s) in
        sends cfg s (fst (handle_change parse_v6 parse_json order p d s1)) (snd (handle_change parse_v6 parse_json order p d s1))).
      { intros _ s1. refine (change_sends cfg files s1 p fmt order d _ Ho Hf _).
        - apply files_ok_same; auto.
          + intros q fmt'. rewrite (mget_mset _ N.eqb_spec). destruct (N.eqb_spec q p) as [->|]; [congruence|apply (Hok q)].
          + intros q. rewrite (mget_mset _ N.eqb_spec). destruct (N.eqb_spec q p); [discriminate|auto].
        - cbn [s1 f_watched]. now rewrite (mget_mset _ N.eqb_spec), N.eqb_refl. }
      unfold FiModel.add_file. destruct d; [now apply sends_nothing|apply Ha; discriminate|apply Ha; discriminate].
  - destruct (mget N.eqb p (f_watched s)) as [fmt'|] eqn:Hp; [|now apply sends_nothing].
    assert (Hp' : mget N.eqb p cfg = Some fmt') by (apply (Hok p); exact Hp).
    pose proof (purge_sends cfg files s p fmt' order Hok Ho Hp') as H. destruct (purge parse_v6 parse_json fmt' order p s) as [s1 o1]. exact H.
  - now apply sends_nothing.
Qed.
Lemma world_run_snoc cfg vs v : forall s, world_run parse_v6 parse_json parent cfg s (vs ++ [v]) =
  let r := world_run parse_v6 parse_json parent cfg s vs in let q := world_step parse_v6 parse_json parent cfg (fst r) v in (fst q, snd r ++ snd q).
Proof.
  induction vs as [|v0 vs IH]; intros s; cbn [world_run app].
  - cbn [fst snd]. destruct (world_step parse_v6 parse_json parent cfg s v) as [s1 o1]. cbn [fst snd]. now rewrite app_nil_r.
  - destruct (world_step parse_v6 parse_json parent cfg s v0) as [s1 o1]. rewrite IH. cbn zeta. destruct (world_run parse_v6 parse_json parent cfg s1 vs) as [s2 o2]. cbn [fst snd]. now rewrite app_assoc.
Qed.
Lemma files_run_snoc cfg order disk0 vs v : files_run parse_v6 parse_json parent cfg order disk0 (vs ++ [v]) =
  let r := files_run parse_v6 parse_json parent cfg order disk0 vs in let q := world_step parse_v6 parse_json parent cfg (fst r) v in (fst q, snd r ++ snd q).
Proof.
  unfold files_run. destruct (setup parse_v6 parse_json parent order disk0 cfg files_new) as [s1 o1]. rewrite world_run_snoc. cbn zeta.
  destruct (world_run parse_v6 parse_json parent cfg s1 vs) as [s2 o2]. cbn [fst snd]. now rewrite app_assoc.
Qed.
Lemma dirs_step cfg v s : f_dirs (fst (world_step parse_v6 parse_json parent cfg s v)) = f_dirs s.
Proof.
  unfold world_step, handle_event. destruct (existsb (N.eqb (parent (v_path v))) (f_dirs s)) eqn:E; [|reflexivity]. destruct (mget N.eqb (v_path v) cfg) as [fmt|]; [|reflexivity].
  destruct (v_kind v); [| |reflexivity].
  - destruct (mhas N.eqb (v_path v) (f_watched s)).
    + unfold handle_change. destruct (mget N.eqb (v_path v) (f_watched s)); [|reflexivity]. now destruct (v_disk v).
    + unfold FiModel.add_file. destruct (v_disk v); [reflexivity| |]; unfold handle_change; cbn [f_watched]; rewrite (mget_mset _ N.eqb_spec), N.eqb_refl; cbn; unfold insert_n; now rewrite E.
  - destruct (mget N.eqb (v_path v) (f_watched s)); reflexivity.
Qed.
Lemma dirs_known cfg order disk0 vs x : In x (f_dirs (fst (files_run parse_v6 parse_json parent cfg order disk0 vs))) ->
  exists p fmt, In (p, fmt) cfg /\ parent p = x /\ disk0 p <> Missing.
Proof.
  assert (Hs : forall rest s, (forall x, In x (f_dirs s) -> exists p fmt, In (p, fmt) cfg /\ parent p = x /\ disk0 p <> Missing) -> (forall e, In e rest -> In e cfg) ->
    forall x, In x (f_dirs (fst (setup parse_v6 parse_json parent order disk0 rest s))) -> exists p fmt, In (p, fmt) cfg /\ parent p = x /\ disk0 p <> Missing).
  { induction rest as [|[p fmt] rest IH]; intros s Hd Hr; [exact Hd|]. cbn [setup]. destruct (add_file order p fmt (disk0 p) s) as [s1 o1] eqn:Ea.
    destruct (setup parse_v6 parse_json parent order disk0 rest s1) as [s2 o2] eqn:Es. cbn [fst]. specialize (IH s1). rewrite Es in IH. cbn [fst] in IH. apply IH; [|intros e He; apply Hr; now right].
    intros y Hy. replace s1 with (fst (add_file order p fmt (disk0 p) s)) in Hy by now rewrite Ea. unfold FiModel.add_file in Hy.
    destruct (disk0 p) eqn:Ep; [auto| |]; unfold handle_change in Hy; cbn [f_watched] in Hy; rewrite (mget_mset _ N.eqb_spec), N.eqb_refl in Hy; cbn in Hy;
    unfold insert_n in Hy; (destruct (existsb (N.eqb (parent p)) (f_dirs s)); [auto|]); (destruct Hy as [<-|Hy]; [|auto]); exists p, fmt; (split; [apply Hr; now left|]); (split; [reflexivity|congruence]). }
  induction vs as [|v vs IH] using rev_ind.
  - unfold files_run. specialize (Hs cfg files_new). destruct (setup parse_v6 parse_json parent order disk0 cfg files_new) as [s1 o1]. cbn [world_run fst] in *. apply Hs; [intros y []|auto].
  - rewrite files_run_snoc. cbn zeta. cbn [fst]. rewrite dirs_step. exact IH.
Qed.
Lemma content_snoc p vs v : forall d, content_after d p (vs ++ [v]) = content_after (content_after d p vs) p [v].
Proof. induction vs as [|v0 vs IH]; intros d; [reflexivity|]. cbn [content_after app]. rewrite IH. reflexivity. Qed.
End Env.
Lemma files_run_agrees parse_v6 parse_json parent cfg order disk0 vs : parse_json [] = None ->
  NoDup (map fst cfg) -> walks_all order -> Forall (fun v => walks_all (v_order v)) vs -> all_watched parent cfg disk0 ->
  (forall k, unambiguous parse_v6 parse_json cfg (fun p => content_after (disk0 p) p (firstn k vs))) ->
  agrees parse_v6 parse_json cfg (fun p => content_after (disk0 p) p vs) (apply_ops (snd (files_run parse_v6 parse_json parent cfg order disk0 vs))).
Proof.
  intros Hj Hn Ho Hov Ha Hu. destruct (files_run_good parse_v6 parse_json Hj True parent cfg order disk0 vs Hn Ho Hov Ha (fun k _ => Hu k)) as [(K1 & K2 & K3) _].
  eapply described_agrees; eauto.
Qed.
Lemma files_run_event parse_v6 parse_json parent cfg order disk0 vs v : parse_json [] = None ->
  NoDup (map fst cfg) -> walks_all order -> Forall (fun v => walks_all (v_order v)) (vs ++ [v]) -> all_watched parent cfg disk0 ->
  exists R A : list (N * text * payload), NoDup R /\ NoDup A /\
  (forall a, In a R <-> said parse_v6 parse_json cfg (fun p => content_after (disk0 p) p vs) a /\ ~ said parse_v6 parse_json cfg (fun p => content_after (disk0 p) p (vs ++ [v])) a) /\
  (forall a, In a A <-> said parse_v6 parse_json cfg (fun p => content_after (disk0 p) p (vs ++ [v])) a /\ ~ said parse_v6 parse_json cfg (fun p => content_after (disk0 p) p vs) a) /\
  snd (files_run parse_v6 parse_json parent cfg order disk0 (vs ++ [v])) =
  snd (files_run parse_v6 parse_json parent cfg order disk0 vs) ++ map (fun a => delete_op (snd a)) R ++ map (fun a => upsert_op (snd a)) A.
Proof.
  intros Hj Hn Ho Hov Ha. apply Forall_app in Hov as Hov'. destruct Hov' as [Hov1 Hov2]. inversion Hov2 as [|? ? Hv _]; subst.
  destruct (files_run_good parse_v6 parse_json Hj False parent cfg order disk0 vs Hn Ho Hov1 Ha (fun k H => False_ind _ H)) as [(K1 & _) _].
  destruct (files_run_good parse_v6 parse_json Hj False parent cfg order disk0 (vs ++ [v]) Hn Ho Hov Ha (fun k H => False_ind _ H)) as [(K2 & _) _].
  pose proof (event_sends parse_v6 parse_json parent cfg _ _ v K1 Hv) as (R & A & HR & HA & RR & AA & E).
  rewrite files_run_snoc in *. cbn zeta in *. cbn [fst snd] in *. rewrite E. exists R, A. split; [exact HR|]. split; [exact HA|].
  assert (S1 : forall a, current parse_v6 parse_json cfg (f_lines (fst (files_run parse_v6 parse_json parent cfg order disk0 vs))) a <-> said parse_v6 parse_json cfg (fun p => content_after (disk0 p) p vs) a).
  { intros [[p l] y]. apply (current_says parse_v6 parse_json Hj cfg _ _ Hn K1). }
  assert (S2 : forall a, current parse_v6 parse_json cfg (f_lines (fst (world_step parse_v6 parse_json parent cfg (fst (files_run parse_v6 parse_json parent cfg order disk0 vs)) v))) a <-> said parse_v6 parse_json cfg (fun p => content_after (disk0 p) p (vs ++ [v])) a).
  { intros [[p l] y]. apply (current_says parse_v6 parse_json Hj cfg _ _ Hn K2). }
  split; [intros a; rewrite RR, S1, S2; reflexivity|]. split; [intros a; rewrite AA, S1, S2; reflexivity|]. reflexivity.
Qed.
