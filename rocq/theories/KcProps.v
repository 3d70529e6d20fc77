(** * The Kafka consumer: properties C221 to C224 *)

From Coq Require Import List Arith NArith Bool Lia.
From Verif Require Import KcModel KcSpec KcProofs.
Import ListNotations.

Section Props.
Variables Op Payload HState : Type.
Variable handle : HState -> Payload -> HState * option (list Op).
Notation run := (run handle).
Notation step := (step handle).
Notation reachable := (reachable handle).
Notation operations := (operations handle).

(** ** C221: every operation reaches every enrichment task, once and in order *)

(** At any time, whatever happened, an enrichment task was given a prefix of
    the operations of the messages taken so far: none twice, none left out
    before another, none out of order. *)
Theorem C221_tasks_get_a_prefix : forall ts h ls s t,
  reachable ts h ls s -> In t (tasks s) ->
  prefix (accepted t) (operations h (yielded ls)).
Proof.
  intros ts h ls s t R H. apply In_nth_error in H. destruct H as [i H].
  rewrite <- (reachable_taken _ _ _ _ _ _ _ _ R).
  exact (proj2 (I_t _ _ _ _ _ _ (reachable_inv _ _ _ _ _ _ _ _ R) i t H)).
Qed.

(** Whenever the consumer is not in the middle of a message, a task that runs
    was given all of them. *)
Theorem C221_running_tasks_get_all : forall ts h ls s t,
  reachable ts h ls s -> In t (tasks s) -> running t = true ->
  (at_phase s = Idle \/ (exists sec, at_phase s = Reconnecting sec) \/
   (exists e, at_phase s = Ended e)) ->
  accepted t = operations h (yielded ls).
Proof.
  intros ts h ls s t R H Q P. apply In_nth_error in H. destruct H as [i H].
  rewrite <- (reachable_taken _ _ _ _ _ _ _ _ R).
  pose proof (proj1 (I_t _ _ _ _ _ _ (reachable_inv _ _ _ _ _ _ _ _ R) i t H) Q) as A.
  destruct P as [P|[[sec P]|[e P]]]; rewrite P in A; cbn in A;
    rewrite app_nil_r in A; exact A.
Qed.

(** In the middle of a message, a task that runs lacks exactly the operations
    the consumer still has to offer it. *)
Theorem C221_running_tasks_lack_the_rest : forall ts h ls s i t op rest k b,
  reachable ts h ls s -> nth_error (tasks s) i = Some t -> running t = true ->
  (at_phase s = Sending (op :: rest) k b \/ at_phase s = Pausing (op :: rest) k b) ->
  operations h (yielded ls) =
  accepted t ++ (if Nat.ltb i k then rest else op :: rest).
Proof.
  intros ts h ls s i t op rest k b R H Q P.
  rewrite <- (reachable_taken _ _ _ _ _ _ _ _ R).
  pose proof (proj1 (I_t _ _ _ _ _ _ (reachable_inv _ _ _ _ _ _ _ _ R) i t H) Q) as A.
  destruct P as [P|P]; rewrite P in A; cbn [pending] in A; symmetry; exact A.
Qed.

(** ** C222: a task that ended or is slow does not disturb the others *)

(** While no task ends, no operation is given up and no backoff is slept. *)
Theorem C222_no_failure_while_tasks_run : forall ts h ls s,
  reachable ts h ls s -> (forall i, ~ In (End i) ls) ->
  send_error s = 0 /\
  (forall ops i b, at_phase s <> Pausing ops i b).
Proof.
  intros ts h ls s [F R] N.
  assert (G : no_failure Op Payload HState s).
  { apply (run_invariant _ _ _ handle (no_failure Op Payload HState) (not_end Payload))
      with (ls := ls) (s := start ts h).
    - intros s0 l s1. apply no_failure_step.
    - apply Forall_forall. intros l Hl. destruct l; cbn; auto. exact (N i Hl).
    - split; [|split; [reflexivity|exact Logic.I]].
      cbn. eapply Forall_impl; [|exact F]. intros t (_ & Q & _). exact Q.
    - exact R. }
  destruct G as (_ & Z & P). split; [exact Z|].
  intros ops i b E. rewrite E in P. exact P.
Qed.

(** The code gives up on a task that has ended after offering the operation
    to it: 21 offers, 20 sleeps of 10.48575 seconds in all. *)
Theorem C222_gives_up_after_21_offers : forall s op rest i t,
  at_phase s = Sending (op :: rest) i 10 ->
  nth_error (tasks s) i = Some t -> running t = false ->
  exists ls s', run s ls = Some s' /\
    length (filter (fun l => match l with Turn => true | _ => false end) ls) = 21 /\
    at_phase s' = Sending (op :: rest) (S i) 10 /\
    tasks s' = tasks s /\ send_error s' = S (send_error s) /\
    clock s' = (clock s + 10485750)%N.
Proof.
  intros s op rest i t P N R. exists (turns Payload 20).
  destruct (give_up _ _ _ handle 20 op rest i s 0 t eq_refl N R P)
    as (s' & A1 & A2 & A3 & A4 & A5).
  exists s'. split; [exact A1|]. split; [reflexivity|]. split; [exact A2|].
  split; [exact A3|]. split; [exact A4|].
  change (10 * 2 ^ N.of_nat 0)%N with 10%N in A5.
  change (10 * 2 ^ 20)%N with 10485760%N in A5. lia.
Qed.

(** Refuted: a task that ended holds up all the others.  Whatever happens,
    the consumer stays with it for more than ten seconds, for each operation:
    a send to an ended task never succeeds again. *)
Theorem C222_ended_task_delays_the_others_refuted : forall s op rest i t ls s',
  at_phase s = Sending (op :: rest) i 10 ->
  nth_error (tasks s) i = Some t -> running t = false ->
  run s ls = Some s' ->
  (clock s' < clock s + 10485750)%N ->
  exists b, at_phase s' = Sending (op :: rest) i b \/
            at_phase s' = Pausing (op :: rest) i b.
Proof.
  intros s op rest i t ls s' P N R H C.
  assert (G : held Op Payload HState (op :: rest) i (clock s) s').
  { eapply held_run; [|exact H]. split; [exists t; auto|]. right. exists 0.
    split; [reflexivity|]. left. split; [lia|exact P]. }
  destruct G as [_ [G|(j & _ & [[_ G]|[_ G]])]].
  - lia.
  - eexists. left. exact G.
  - eexists. right. exact G.
Qed.

(** Refuted: a task that does not receive holds up all the others for as long
    as it likes.  Until it receives or ends, no task gets anything and the
    consumer does nothing, shutdown included. *)
Theorem C222_full_task_stops_the_others_refuted : forall s op rest i b t ls s',
  at_phase s = Sending (op :: rest) i b ->
  nth_error (tasks s) i = Some t -> running t = true ->
  capacity t <= waiting t ->
  ~ In (Receive i) ls -> ~ In (End i) ls ->
  run s ls = Some s' ->
  at_phase s' = at_phase s /\ map accepted (tasks s') = map accepted (tasks s).
Proof.
  intros s op rest i b t ls s' P N R L N1 N2 H.
  assert (G : stuck Op Payload HState op rest i b (map accepted (tasks s)) s').
  { apply (run_invariant _ _ _ handle
      (stuck Op Payload HState op rest i b (map accepted (tasks s))) (leaves Payload i))
      with (ls := ls) (s := s).
    - intros s0 l s1. apply stuck_step.
    - apply Forall_forall. intros l Hl. destruct l; cbn; auto; intros ->; auto.
    - split; [exists t; auto|]. split; [exact P|reflexivity].
    - exact H. }
  destruct G as (_ & A & B). split; [congruence|exact B].
Qed.

(** ** C223: shutdown *)

(** Between two messages a shutdown goes first: the next step of the consumer
    ends it, and nothing more is taken. *)
Theorem C223_shutdown_before_the_next_message : forall s l s',
  at_phase s = Idle -> 0 < commands s ->
  own l = true -> step s l = Some s' ->
  l = Command /\ at_phase s' = Ended ByShutdown /\ taken s' = taken s /\
  tasks s' = tasks s.
Proof.
  intros s l s' P C O H. destruct l; try discriminate O;
    cbn [KcModel.step] in H; rewrite P in H; try discriminate.
  - destruct (commands s); [lia|discriminate].
  - destruct (commands s); [lia|]. injection H as <-. cbn. auto.
Qed.

(** After the command is in the channel, the consumer makes a bounded number
    of steps, the rest of the message at hand, unless it is reconnecting. *)
Theorem C223_bounded_steps_after_shutdown_partial : forall ts h pre s ls s',
  reachable ts h pre s -> 0 < commands s ->
  (forall sec, at_phase s <> Reconnecting sec) ->
  run s ls = Some s' ->
  length (filter own ls) <=
  match at_phase s with
  | Sending ops _ _ | Pausing ops _ _ =>
      43 + length ops * (41 * length (tasks s) + 1)
  | _ => 1
  end.
Proof.
  intros ts h pre s ls s' R C P H.
  pose proof (reachable_inv _ _ _ _ _ _ _ _ R) as I.
  assert (A : asked _ _ _ handle h s).
  { split; [exact I|]. split; [exact C|].
    destruct (at_phase s) eqn:E; auto. exact (P _ eq_refl). }
  pose proof (asked_run _ _ _ handle _ _ _ _ A H) as L.
  pose proof (I_b _ _ _ _ _ _ I) as W.
  destruct (at_phase s) as [|ops i b|ops i b|sec|e].
  - exact L.
  - pose proof (proj1 (weight_bound Op (length (tasks s)) ops i b)). lia.
  - destruct W as [NE W].
    pose proof (proj2 (weight_bound Op (length (tasks s)) ops i b) NE W). lia.
  - destruct (P sec eq_refl).
  - cbn in L. lia.
Qed.

(** Refuted: while the brokers are down a shutdown is not heard.  Until a
    reconnection succeeds the consumer goes on, whatever is asked of it. *)
Theorem C223_reconnecting_ignores_shutdown_refuted : forall s sec ls s',
  at_phase s = Reconnecting sec ->
  ~ In (Retry true) ls ->
  run s ls = Some s' ->
  at_phase s' = Reconnecting sec.
Proof.
  intros s sec ls s' P N H.
  apply (run_invariant _ _ _ handle (fun s => at_phase s = Reconnecting sec)
           (not_back Payload)) with (ls := ls) (s := s); auto.
  - intros s0 l s1. apply reconnecting_step.
  - apply Forall_forall. intros l Hl. destruct l; cbn; auto.
    destruct ok; auto.
Qed.

(** And there are such histories of any length: asked to shut down when all
    brokers are down, the consumer still tries after any number of minutes. *)
Theorem C223_shutdown_waits_any_time_refuted : forall ts h n,
  Forall fresh ts ->
  exists s,
    reachable ts h ([Yield AllBrokersDown; Shutdown] ++ repeat (Retry false) n) s /\
    at_phase s = Reconnecting 60 /\ commands s = 1 /\
    clock s = (N.of_nat n * 60000000)%N.
Proof.
  intros ts h n F. unfold KcSpec.reachable. rewrite run_app.
  cbn [KcModel.run KcModel.step start at_phase commands handle_alive on_input
       count_received with_phase].
  match goal with |- exists s, (_ /\ KcModel.run _ ?s1 _ = _) /\ _ =>
    destruct (retry_many _ _ _ handle n s1 60 eq_refl) as (s' & A1 & A2 & A3 & A4) end.
  exists s'. split; [split; [exact F|exact A1]|]. split; [exact A2|].
  split; [exact A3|]. rewrite A4. rewrite N.add_0_l, <- N.mul_assoc. reflexivity.
Qed.

(** ** C224: bad messages and errors do not end the consumer; the counters *)

(** The consumer ends only after a shutdown, when its last handle is dropped,
    or when the topic does not exist. *)
Theorem C224_ends_only_for_a_reason : forall ts h ls s e,
  reachable ts h ls s -> at_phase s = Ended e ->
  match e with
  | ByShutdown => In Shutdown ls
  | NoHandleLeft => In DropHandle ls
  | TopicError => exists xs, yielded ls = xs ++ [UnknownTopic]
  end.
Proof.
  intros ts h ls s e R P. pose proof (reachable_taken _ _ _ _ _ _ _ _ R) as T.
  destruct R as [F R].
  assert (G : reasons Op Payload HState s (false || existsb (is_shutdown Payload) ls)
                (false || existsb (is_drop Payload) ls)).
  { eapply reasons_run; [|exact R]. unfold reasons. cbn.
    split; [lia|]. split; [discriminate|exact Logic.I]. }
  destruct G as (_ & _ & G). rewrite P in G. destruct e.
  - cbn in G. apply existsb_exists in G. destruct G as (l & H & E).
    destruct l; try discriminate E. exact H.
  - cbn in G. apply existsb_exists in G. destruct G as (l & H & E).
    destruct l; try discriminate E. exact H.
  - rewrite T in G. exact G.
Qed.

(** Otherwise it always can go on, or waits for a task whose channel is full. *)
Theorem C224_never_stuck : forall ts h ls s,
  reachable ts h ls s -> (forall e, at_phase s <> Ended e) ->
  (exists l s', own l = true /\ step s l = Some s') \/
  (exists op rest i b t, at_phase s = Sending (op :: rest) i b /\
     nth_error (tasks s) i = Some t /\ running t = true /\
     capacity t <= waiting t).
Proof.
  intros ts h ls s R P.
  destruct (progress _ _ _ handle _ _ (reachable_inv _ _ _ _ _ _ _ _ R))
    as [[e E]|[G|(op & r & i & b & E & (t & G))]].
  - destruct (P e E).
  - left. exact G.
  - right. exists op, r, i, b, t. auto.
Qed.

(** A message without a payload, one that the handler rejects, or an error
    other than the three the code knows is passed over: the consumer is ready
    for the next, and no task notices. *)
Theorem C224_bad_messages_are_passed_over : forall s x s',
  step s (Yield x) = Some s' ->
  match x with
  | Message None | OtherError => True
  | Message (Some p) => snd (handle (hstate s) p) = None
  | _ => False
  end ->
  at_phase s' = Idle /\ tasks s' = tasks s /\ commands s' = commands s.
Proof.
  intros s x s' H K. cbn [KcModel.step] in H.
  destruct (at_phase s); try discriminate.
  destruct (commands s) eqn:C; [|discriminate].
  destruct (handle_alive s); [|discriminate]. injection H as <-.
  destruct x as [[p|]| | | |]; try (exfalso; exact K); [|cbn; auto|cbn; auto].
  cbn. destruct (handle (hstate s) p) as [h' [ops|]]; cbn in K |- *;
    [discriminate|auto].
Qed.

(** When the brokers are back, so is the consumer. *)
Theorem C224_reconnection_resumes : forall s sec,
  at_phase s = Reconnecting sec ->
  exists s', step s (Retry true) = Some s' /\ at_phase s' = Idle /\
    tasks s' = tasks s /\ hstate s' = hstate s /\ commands s' = commands s.
Proof.
  intros s sec P. eexists. cbn [KcModel.step]. rewrite P.
  split; [reflexivity|]. cbn. auto.
Qed.

(** The counters count what happened. *)
Theorem C224_counters : forall ts h ls s,
  reachable ts h ls s ->
  received s = length (yielded ls) /\
  empty_payload s = length (filter without_payload (yielded ls)) /\
  handling_error s = rejected handle h (yielded ls) /\
  generated s = length (operations h (yielded ls)) /\
  reconnects s = length (filter is_retry ls).
Proof.
  intros ts h ls s R. pose proof (reachable_inv _ _ _ _ _ _ _ _ R) as I.
  rewrite <- (reachable_taken _ _ _ _ _ _ _ _ R).
  split; [exact (I_r _ _ _ _ _ _ I)|]. split; [exact (I_e _ _ _ _ _ _ I)|].
  split; [exact (I_x _ _ _ _ _ _ I)|]. split; [exact (I_g _ _ _ _ _ _ I)|].
  destruct R as [_ R]. exact (proj2 (run_history _ _ _ _ _ _ _ R)).
Qed.

(** An ended consumer stays ended. *)
Theorem C224_ended_is_final : forall s e l s',
  at_phase s = Ended e -> step s l = Some s' ->
  own l = false /\ at_phase s' = Ended e /\ taken s' = taken s.
Proof. intros s e l s'. apply ended_final. Qed.

End Props.
Print Assumptions C221_tasks_get_a_prefix.
Print Assumptions C221_running_tasks_get_all.
Print Assumptions C221_running_tasks_lack_the_rest.
Print Assumptions C222_no_failure_while_tasks_run.
Print Assumptions C222_gives_up_after_21_offers.
Print Assumptions C222_ended_task_delays_the_others_refuted.
Print Assumptions C222_full_task_stops_the_others_refuted.
Print Assumptions C223_shutdown_before_the_next_message.
Print Assumptions C223_bounded_steps_after_shutdown_partial.
Print Assumptions C223_reconnecting_ignores_shutdown_refuted.
Print Assumptions C223_shutdown_waits_any_time_refuted.
Print Assumptions C224_ends_only_for_a_reason.
Print Assumptions C224_never_stuck.
Print Assumptions C224_bad_messages_are_passed_over.
Print Assumptions C224_reconnection_resumes.
Print Assumptions C224_counters.
Print Assumptions C224_ended_is_final.

(** ** Cases *)

(** A handler that numbers the messages and rejects empty ones. *)
Definition ex_handle (h : nat) (p : list nat) : nat * option (list nat) :=
  match p with
  | [] => (h, None)
  | _ => (S h, Some (map (fun x => x + 10 * h) p))
  end.

Definition ex_tasks : list (task nat) :=
  [mk_task 2 0 true []; mk_task 1 0 true []].

Definition ex_history : list (label (list nat)) :=
  [Yield (Message (Some [1; 2])); Turn; Turn; Turn; Turn; Receive 1; Turn;
   Turn; Turn; Yield (Message None); Yield (Message (Some []));
   Yield OtherError].

(** Two operations, one task slower than the other; a message without a
    payload, a rejected one and an error. *)
Example C221_nonvacuous : exists s,
  reachable ex_handle ex_tasks 0 ex_history s /\
  at_phase s = Idle /\ map accepted (tasks s) = [[1; 2]; [1; 2]] /\
  received s = 4 /\ empty_payload s = 1 /\ handling_error s = 1 /\
  generated s = 2.
Proof.
  unfold reachable.
  destruct (run ex_handle (start ex_tasks 0) ex_history) as [s|] eqn:E;
    [|vm_compute in E; discriminate].
  exists s. split; [split; [repeat constructor|exact eq_refl]|].
  vm_compute in E. injection E as <-. cbn. auto 8.
Qed.

(** The first task ends in the middle of a message. *)
Example C222_nonvacuous : exists s t,
  reachable ex_handle ex_tasks 0 [Yield (Message (Some [1])); End 0] s /\
  at_phase s = Sending [1] 0 10 /\ nth_error (tasks s) 0 = Some t /\
  running t = false.
Proof.
  unfold reachable.
  destruct (run ex_handle (start ex_tasks 0) [Yield (Message (Some [1])); End 0])
    as [s|] eqn:E; [|vm_compute in E; discriminate].
  vm_compute in E. injection E as <-.
  eexists. eexists. split; [split; [repeat constructor|reflexivity]|]. cbn. auto.
Qed.

(** The second task is full when the second operation comes. *)
Example C222_full_nonvacuous : exists s t,
  reachable ex_handle ex_tasks 0 (firstn 5 ex_history) s /\
  at_phase s = Sending [2] 1 10 /\ nth_error (tasks s) 1 = Some t /\
  running t = true /\ capacity t <= waiting t.
Proof.
  unfold reachable.
  destruct (run ex_handle (start ex_tasks 0) (firstn 5 ex_history))
    as [s|] eqn:E; [|vm_compute in E; discriminate].
  vm_compute in E. injection E as <-.
  eexists. eexists. split; [split; [repeat constructor|reflexivity]|]. cbn. auto.
Qed.

(** A shutdown in the middle of a message, and the consumer's end. *)
Example C223_nonvacuous : exists s s',
  reachable ex_handle ex_tasks 0 [Yield (Message (Some [1])); Shutdown] s /\
  0 < commands s /\
  run ex_handle s [Turn; Turn; Turn; Turn; Command] = Some s' /\
  at_phase s' = Ended ByShutdown /\
  map accepted (tasks s') = [[1]; [1]].
Proof.
  unfold reachable.
  destruct (run ex_handle (start ex_tasks 0) [Yield (Message (Some [1])); Shutdown])
    as [s|] eqn:E; [|vm_compute in E; discriminate].
  vm_compute in E. injection E as <-.
  eexists. eexists. split; [split; [repeat constructor|reflexivity]|].
  split; [cbn; lia|]. split; [vm_compute; reflexivity|]. cbn. auto.
Qed.

(** The topic does not exist; a lost broker and a second try. *)
Example C224_nonvacuous : exists s s',
  reachable ex_handle ex_tasks 0 [Yield UnknownTopic] s /\
  at_phase s = Ended TopicError /\
  reachable ex_handle ex_tasks 0
    [Yield Fatal; Retry false; Retry true; DropHandle; Command] s' /\
  at_phase s' = Ended NoHandleLeft /\ reconnects s' = 2 /\
  clock s' = 60000000%N.
Proof.
  unfold reachable.
  eexists. eexists. split; [split; [repeat constructor|reflexivity]|].
  split; [reflexivity|]. split; [split; [repeat constructor|reflexivity]|].
  cbn. auto.
Qed.
