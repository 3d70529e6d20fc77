(** * The stages a flow passes: properties C225 to C228 *)

From Coq Require Import List Arith Bool Lia Permutation.
From Verif Require Import StModel StSpec StProofs.
Import ListNotations.

Section Props.
Variables In Out Op Cache : Type.
Variable apply : Cache -> Op -> Cache.
Variable enrich : Cache -> In -> option Out.
Variable fatal : bool.
Notation run := (run apply enrich fatal).
Notation step := (step apply enrich fatal).
Notation outputs := (outputs apply enrich).

(** ** C225: flows pass a stage once, in order, with the updates before them *)

(** What was taken up, with what waits, is what was offered, in order: no flow
    and no update is lost, repeated or overtaken by one of its kind. *)
Theorem C225_flows_and_updates_in_order : forall cap c ls s,
  run (start cap c) ls = Some s ->
  flows_of (processed s) ++ in_queue s = offered ls /\
  updates_of (processed s) ++ ops_queue s = updates ls.
Proof.
  intros cap c ls s R. pose proof (run_Inv _ _ _ _ _ _ _ _ _ _ _ R) as I.
  split; [exact (I_f _ _ _ _ _ _ _ _ _ I)|exact (I_u _ _ _ _ _ _ _ _ _ I)].
Qed.

(** What a stage hands on is a prefix of what comes of the flows it took up,
    each worked on with the updates before it. *)
Theorem C225_handed_on_in_order : forall cap c ls s,
  run (start cap c) ls = Some s ->
  prefix (accepted s) (outputs c (processed s)).
Proof.
  intros cap c ls s R.
  destruct (I_s _ _ _ _ _ _ _ _ _ (run_Inv _ _ _ _ _ _ _ _ _ _ _ R))
    as [[_ A]|(_ & _ & _ & o & A)]; eexists; symmetry; exact A.
Qed.

(** It is all of it when the stage waits for the next flow or ended with its
    input, while a handle exists. *)
Theorem C225_nothing_is_lost : forall cap c ls s,
  run (start cap c) ls = Some s ->
  (at_phase s = Idle /\ handle_alive s = true \/ at_phase s = Ended InputClosed) ->
  accepted s = outputs c (processed s).
Proof.
  intros cap c ls s R P.
  destruct (I_s _ _ _ _ _ _ _ _ _ (run_Inv _ _ _ _ _ _ _ _ _ _ _ R))
    as [[_ A]|(_ & H & Q & o & A)].
  - destruct P as [[P _]|P]; rewrite P in A; cbn in A; rewrite app_nil_r in A;
      exact A.
  - destruct P as [[_ P]|P]; [congruence|].
    destruct Q as [Q|[Q|[Q|Q]]]; congruence.
Qed.

(** In any case at most one flow that was taken up is not handed on. *)
Theorem C225_at_most_one_lost : forall cap c ls s,
  run (start cap c) ls = Some s ->
  length (outputs c (processed s)) <= length (accepted s) + 1.
Proof.
  intros cap c ls s R.
  destruct (I_s _ _ _ _ _ _ _ _ _ (run_Inv _ _ _ _ _ _ _ _ _ _ _ R))
    as [[_ A]|(_ & H & Q & o & A)]; rewrite <- A, app_length.
  - destruct (at_phase s); cbn; lia.
  - cbn. lia.
Qed.

(** Updates first: when a flow is taken up, every update sent until then is
    in force. *)
Theorem C225_updates_first : forall cap c ls s s' x,
  run (start cap c) ls = Some s -> step s Turn = Some s' ->
  processed s' = processed s ++ [inr x] ->
  updates_of (processed s) = updates ls.
Proof.
  intros cap c ls s s' x R H P.
  rewrite <- (I_u _ _ _ _ _ _ _ _ _ (run_Inv _ _ _ _ _ _ _ _ _ _ _ R)).
  cbn [StModel.step] in H. unfold turn in H.
  assert (Z : forall l : list (Op + In), l = l ++ [inr x] -> False).
  { intros l E. apply (f_equal (@length _)) in E. rewrite app_length in E.
    cbn in E. lia. }
  destruct (at_phase s) as [|o|e]; [| |discriminate].
  - destruct (commands s);
      [|apply Some_inj in H; subst s'; destruct (Z _ P)].
    destruct (negb (handle_alive s));
      [apply Some_inj in H; subst s'; destruct (Z _ P)|].
    destruct (ops_queue s) as [|op rest]; [symmetry; apply app_nil_r|].
    apply Some_inj in H; subst s'. cbn in P. apply app_inj_tail in P.
    destruct P as [_ P]. discriminate.
  - destruct (negb (receivers s));
      [apply Some_inj in H; subst s'; destruct (Z _ P)|].
    destruct (Nat.ltb (length (out_queue s)) (capacity s)); [|discriminate].
    apply Some_inj in H; subst s'. destruct (Z _ P).
Qed.

(** ** C226: subscribers *)

(** A stage's only subscriber gets everything, in order. *)
Theorem C226_only_subscriber_gets_all : forall cap c ls s b,
  run (start cap c) ls = Some s -> subscribers s = [b] ->
  got b ++ out_queue s = accepted s.
Proof.
  intros cap c ls s b R H.
  destruct (S_t _ _ _ _ _ (run_Subs _ _ _ _ _ _ _ _ _ _ _ R))
    as (t & E & _ & _ & T). rewrite (T b H). symmetry. exact E.
Qed.

(** Several subscribers share: together they get everything once, and each
    gets its share in order. *)
Theorem C226_subscribers_share : forall cap c ls s,
  run (start cap c) ls = Some s ->
  Permutation (concat (map got (subscribers s)) ++ out_queue s) (accepted s) /\
  (forall b, List.In b (subscribers s) -> subseq (got b) (accepted s)).
Proof.
  intros cap c ls s R. pose proof (run_Subs _ _ _ _ _ _ _ _ _ _ _ R) as I.
  split; [exact (S_p _ _ _ _ _ I)|].
  destruct (S_t _ _ _ _ _ I) as (t & E & T & _). intros b Hb. rewrite E.
  apply subseq_app. auto.
Qed.

(** Refuted: "multiple subscribers can receive the same flow data
    independently", as the documentation has it.  When one has everything,
    every other has nothing. *)
Theorem C226_all_subscribers_get_all_refuted : forall cap c ls s j k a b,
  run (start cap c) ls = Some s ->
  j <> k -> nth_error (subscribers s) j = Some a ->
  nth_error (subscribers s) k = Some b ->
  got a = accepted s -> got b = [].
Proof.
  intros cap c ls s j k a b R D A B E.
  pose proof (S_p _ _ _ _ _ (run_Subs _ _ _ _ _ _ _ _ _ _ _ R)) as P.
  apply Permutation_length in P. rewrite app_length in P.
  pose proof (two_lengths _ _ _ _ _ _ D A B) as L.
  rewrite E in L. destruct (got b); [reflexivity|]. cbn in L. lia.
Qed.

(** ** C227: how a stage ends *)

(** A stage that ended with its input has taken up everything it was given. *)
Theorem C227_input_is_drained : forall cap c ls s,
  run (start cap c) ls = Some s -> at_phase s = Ended InputClosed ->
  flows_of (processed s) = offered ls /\ updates_of (processed s) = updates ls /\
  accepted s = outputs c (processed s).
Proof.
  intros cap c ls s R P. pose proof (run_Inv _ _ _ _ _ _ _ _ _ _ _ R) as I.
  destruct (I_e _ _ _ _ _ _ _ _ _ I P) as [A B].
  split; [rewrite <- (I_f _ _ _ _ _ _ _ _ _ I), A; symmetry; apply app_nil_r|].
  split; [rewrite <- (I_u _ _ _ _ _ _ _ _ _ I), B; symmetry; apply app_nil_r|].
  apply (C225_nothing_is_lost _ _ _ _ R). right. exact P.
Qed.

(** After a shutdown a stage hands on at most the flow at hand, in at most two
    turns, and takes up nothing more. *)
Theorem C227_two_turns_after_shutdown_partial : forall s ls s',
  0 < commands s -> run s ls = Some s' ->
  length (filter is_turn ls) <= 2 /\ processed s' = processed s.
Proof.
  intros s ls s' C R. destruct (asked_run _ _ _ _ _ _ _ _ _ _ C R) as [A B].
  split; [|exact B]. destruct (at_phase s); cbn in A; lia.
Qed.

(** Between two flows the shutdown goes first. *)
Theorem C227_shutdown_goes_first : forall s,
  at_phase s = Idle -> 0 < commands s ->
  exists s', step s Turn = Some s' /\ at_phase s' = Ended Asked /\
    accepted s' = accepted s.
Proof.
  intros s P C. cbn [StModel.step]. unfold turn. rewrite P.
  destruct (commands s) as [|n]; [lia|]. eexists. split; [reflexivity|].
  cbn. auto.
Qed.

(** In terms of the call: once [shutdown] was called, at most two turns follow
    and nothing more is taken up; between two flows the next turn ends it. *)
Theorem C227_shutdown_is_heard_partial : forall s s1 ls s',
  step s Shutdown = Some s1 -> run s1 ls = Some s' ->
  length (filter is_turn ls) <= 2 /\ processed s' = processed s /\
  (at_phase s = Idle ->
   exists s2, step s1 Turn = Some s2 /\ at_phase s2 = Ended Asked).
Proof.
  intros s s1 ls s' H R.
  assert (E : 0 < commands s1 /\ at_phase s1 = at_phase s /\ processed s1 = processed s).
  { cbn [StModel.step] in H.
    destruct (handle_alive s && negb (has_ended s) && Nat.ltb (commands s) 10)%bool;
      [|discriminate].
    injection H as <-. cbn. repeat split; auto. lia. }
  destruct E as (C & P & Q).
  destruct (C227_two_turns_after_shutdown_partial _ _ _ C R) as [A B].
  split; [exact A|]. split; [congruence|]. intro I. rewrite <- P in I.
  destruct (C227_shutdown_goes_first _ I C) as (s2 & X & Y & _). eauto.
Qed.

(** Refuted: with a full output channel a stage neither hears a shutdown nor
    notices that nobody listens.  As long as its handle exists and nobody
    takes from the channel, it stays, whatever else is done; the handle itself
    is a receiver that never takes. *)
Theorem C227_full_output_holds_the_stage_refuted : forall s o ls s',
  at_phase s = Sending o -> handle_alive s = true ->
  capacity s <= length (out_queue s) ->
  (forall k, ~ List.In (Take k) ls) -> ~ List.In DropHandle ls ->
  run s ls = Some s' ->
  at_phase s' = Sending o.
Proof.
  intros s o ls s' P H L N1 N2 R.
  refine (proj1 (run_kept _ _ _ _ _ _ _ (blocked _ _ _ _ o) (no_take _ _) _ ls s s' _ _ R)).
  - intros s0 l s1. apply blocked_step.
  - apply Forall_forall. intros l Hl. destruct l; cbn; auto. exact (N1 k Hl).
  - split; [exact P|]. split; [exact H|exact L].
Qed.

(** Otherwise a stage waits only for its input. *)
Theorem C227_waits_for_input_or_output : forall s,
  step s Turn = None ->
  (exists e, at_phase s = Ended e) \/
  (at_phase s = Idle /\ commands s = 0 /\ ops_queue s = [] /\
   in_queue s = [] /\ in_closed s = false) \/
  ((exists o, at_phase s = Sending o) /\ capacity s <= length (out_queue s)).
Proof.
  intros s H. cbn [StModel.step] in H. unfold turn in H.
  destruct (at_phase s) as [|o|e] eqn:P.
  - right. left. destruct (commands s); [|discriminate].
    destruct (negb (handle_alive s)); [discriminate|].
    destruct (ops_queue s); [|discriminate].
    destruct (in_queue s) as [|x r].
    + destruct (in_closed s); [discriminate|]. auto 6.
    + destruct (enrich (cache s) x); discriminate.
  - right. right. destruct (negb (receivers s)); [discriminate|].
    destruct (Nat.ltb (length (out_queue s)) (capacity s)) eqn:L; [discriminate|].
    apply Nat.ltb_ge in L. split; [exists o; reflexivity|exact L].
  - left. exists e. reflexivity.
Qed.

(** ** C228: the counters of a stage *)

Theorem C228_counters : forall cap c ls s,
  run (start cap c) ls = Some s ->
  received s = length (flows_of (processed s)) /\
  received_ops s = length (updates_of (processed s)) /\
  enrich_error s = failures apply enrich c (processed s) /\
  sent s = length (accepted s).
Proof.
  intros cap c ls s R. pose proof (run_Inv _ _ _ _ _ _ _ _ _ _ _ R) as I.
  split; [exact (I_r _ _ _ _ _ _ _ _ _ I)|].
  split; [exact (I_o _ _ _ _ _ _ _ _ _ I)|].
  split; [exact (I_x _ _ _ _ _ _ _ _ _ I)|exact (I_n _ _ _ _ _ _ _ _ _ I)].
Qed.

(** A flow taken up was handed on, failed, could not be sent, or is the one at
    hand: the counters add up. *)
Theorem C228_counters_add_up : forall cap c ls s,
  run (start cap c) ls = Some s ->
  received s = sent s + enrich_error s + send_error s +
    match at_phase s with Sending _ => 1 | _ => 0 end /\
  send_error s <= 1.
Proof.
  intros cap c ls s R. pose proof (run_Inv _ _ _ _ _ _ _ _ _ _ _ R) as I.
  rewrite (I_r _ _ _ _ _ _ _ _ _ I), (I_x _ _ _ _ _ _ _ _ _ I),
    (I_n _ _ _ _ _ _ _ _ _ I).
  assert (L : forall log c0, length (flows_of log) =
            length (outputs c0 log) + failures apply enrich c0 log).
  { induction log as [|[op|x] log IH]; intros c0; cbn; auto.
    rewrite (IH c0). destruct (enrich c0 x); cbn; lia. }
  rewrite (L _ c).
  destruct (I_s _ _ _ _ _ _ _ _ _ I) as [[A B]|(A & _ & Q & o & B)];
    rewrite A, <- B, app_length.
  - destruct (at_phase s); cbn; lia.
  - destruct Q as [Q|[Q|[Q|Q]]]; rewrite Q; cbn; lia.
Qed.

End Props.
Print Assumptions C225_flows_and_updates_in_order.
Print Assumptions C225_handed_on_in_order.
Print Assumptions C225_nothing_is_lost.
Print Assumptions C225_at_most_one_lost.
Print Assumptions C225_updates_first.
Print Assumptions C226_only_subscriber_gets_all.
Print Assumptions C226_subscribers_share.
Print Assumptions C226_all_subscribers_get_all_refuted.
Print Assumptions C227_input_is_drained.
Print Assumptions C227_two_turns_after_shutdown_partial.
Print Assumptions C227_shutdown_goes_first.
Print Assumptions C227_shutdown_is_heard_partial.
Print Assumptions C227_full_output_holds_the_stage_refuted.
Print Assumptions C227_waits_for_input_or_output.
Print Assumptions C228_counters.
Print Assumptions C228_counters_add_up.

(** ** Two stages in a row *)

(** Enrichment, then renormalization with [g]: when all that the second was
    offered is what the only subscriber of the first got, what the second
    hands on is in order what comes of the flows of the first. *)
Theorem C225_two_stages : forall (A B C Op Op2 Cache Cache2 : Type)
    (apply : Cache -> Op -> Cache) (enrich : Cache -> A -> option B) f1
    (apply2 : Cache2 -> Op2 -> Cache2) (g : B -> C) f2
    cap c ls s b cap2 c2 ls2 s2,
  run apply enrich f1 (start cap c) ls = Some s ->
  subscribers s = [b] ->
  run apply2 (fun _ x => Some (g x)) f2 (start cap2 c2) ls2 = Some s2 ->
  offered ls2 = got b ->
  prefix (accepted s2) (map g (outputs apply enrich c (processed s))).
Proof.
  intros A B C Op Op2 Cache Cache2 apply enrich f1 apply2 g f2
    cap c ls s b cap2 c2 ls2 s2 R1 Hb R2 E.
  destruct (C225_handed_on_in_order _ _ _ _ _ _ _ _ _ _ _ R1) as [r1 P1].
  destruct (C225_handed_on_in_order _ _ _ _ _ _ _ _ _ _ _ R2) as [r2 P2].
  pose proof (C226_only_subscriber_gets_all _ _ _ _ _ _ _ _ _ _ _ _ R1 Hb) as G.
  destruct (C225_flows_and_updates_in_order _ _ _ _ _ _ _ _ _ _ _ R2) as [F _].
  assert (M : forall log c0,
    outputs apply2 (fun _ x => Some (g x)) c0 log = map g (flows_of log)).
  { induction log as [|[op|x] log IH]; intros c0; cbn; auto. f_equal. apply IH. }
  rewrite M in P2. rewrite P1, <- G, <- E, <- F, !map_app, P2, <- !app_assoc.
  eexists. reflexivity.
Qed.
Print Assumptions C225_two_stages.

(** ** Cases *)

(** Flows are numbers, an update sets what is added; nought fails. *)
Definition ex_apply (c op : nat) : nat := op.
Definition ex_enrich (c x : nat) : option nat :=
  match x with 0 => None | _ => Some (x + c) end.

Definition ex_history : list (label nat nat) :=
  [Subscribe; Offer 1; Turn; Turn; Offer 0; Offer 2; Update 10; Turn; Turn;
   Turn; Take 0; Turn].

Example C225_nonvacuous : exists s b,
  run ex_apply ex_enrich false (start 1 0) ex_history = Some s /\
  subscribers s = [b] /\ got b = [1] /\ out_queue s = [12] /\
  outputs ex_apply ex_enrich 0 (processed s) = [1; 12] /\ at_phase s = Idle /\
  enrich_error s = 1.
Proof.
  destruct (run ex_apply ex_enrich false (start 1 0) ex_history) as [s|] eqn:E;
    [|vm_compute in E; discriminate].
  vm_compute in E. injection E as <-. eexists. eexists. cbn. repeat split; reflexivity.
Qed.

(** Two subscribers, two flows: one each. *)
Example C226_nonvacuous : exists s a b,
  run ex_apply ex_enrich false (start 2 0)
    [Subscribe; Subscribe; Offer 1; Offer 2; Turn; Turn; Turn; Turn; Take 1;
     Take 0] = Some s /\
  subscribers s = [a; b] /\ got a = [2] /\ got b = [1] /\ accepted s = [1; 2].
Proof.
  match goal with |- exists s a b, ?r = Some s /\ _ => destruct r as [s|] eqn:E end;
    [|vm_compute in E; discriminate].
  vm_compute in E. injection E as <-. do 3 eexists. cbn. repeat split; reflexivity.
Qed.

(** Nobody listens, the output is full and a shutdown is asked for. *)
Example C227_nonvacuous : exists s,
  run ex_apply ex_enrich true (start 1 0)
    [Offer 1; Offer 2; Turn; Turn; Turn; Shutdown] = Some s /\
  at_phase s = Sending 2 /\ handle_alive s = true /\
  capacity s <= length (out_queue s) /\ 0 < commands s.
Proof.
  match goal with |- exists s, ?r = Some s /\ _ => destruct r as [s|] eqn:E end;
    [|vm_compute in E; discriminate].
  vm_compute in E. injection E as <-. eexists. cbn. repeat split; auto.
Qed.

(** The input is closed with flows waiting; an output without receivers. *)
Example C228_nonvacuous :
  (exists s,
    run ex_apply ex_enrich true (start 2 0)
      [Offer 1; Offer 0; CloseInput; Turn; Turn; Turn; Turn] = Some s /\
    at_phase s = Ended InputClosed /\ received s = 2 /\ sent s = 1) /\
  (exists s,
    run ex_apply ex_enrich true (start 2 0)
      [Offer 1; Turn; DropHandle; Turn] = Some s /\
    at_phase s = Ended OutputClosed /\ send_error s = 1).
Proof.
  split;
    (match goal with |- exists s, ?r = Some s /\ _ => destruct r as [s|] eqn:E end;
     [|vm_compute in E; discriminate];
     vm_compute in E; injection E as <-; eexists; cbn; repeat split; auto).
Qed.
