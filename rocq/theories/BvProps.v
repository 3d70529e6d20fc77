(* The tower-style BMP server: its handle and its connections. *)
From Coq Require Import List Bool Arith NArith Lia.
From Verif Require Import BvModel BvSpec BvProofs.
Import ListNotations.

(* ---- C159: the handle ---- *)
(* the connection count is the number of connections that have not finished *)
Theorem C159_count d es : v_count (after d es) = open_connections (after d es).
Proof. apply count_after. Qed.
Print Assumptions C159_count.
(* once shutdown() returned, every connection ends within two steps of its own,
   whatever its peer does, unless the signal met one between check and wait *)
Theorem C159_shutdown_partial d es i w : clear_of_window d es -> shut_down (after d es) ->
  nth_error (v_workers (after d es)) i = Some (Running w) ->
  nth_error (v_workers (after d (es ++ [WLoad i; WShutdown i]))) i = Some Leaving.
Proof.
  intros Hc Hs Hi. destruct (told_after d es Hc) as [_ T]. pose proof (T Hs w (nth_error_In _ _ Hi)) as Hw. destruct Hs as [Hf _].
  change [WLoad i; WShutdown i] with ([WLoad i] ++ [WShutdown i]). rewrite app_assoc, !after_snoc.
  revert Hi Hf. generalize (after d es) as v. intros v Hi Hf. pose proof (nth_lt _ _ _ Hi) as Hlt.
  assert (E : step d v (WLoad i) = Server (v_shut v) (v_grace v) (v_end v) (v_count v) (set_worker (v_workers v) i (Running Woken)) (v_main v)).
  { unfold step. rewrite Hi. destruct Hw as [-> | ->]; cbn [load]; rewrite ?Hf; destruct (v_main v); reflexivity. }
  rewrite E. unfold step. cbn [v_workers v_main]. rewrite nth_set, Nat.eqb_refl by exact Hlt.
  assert (Hl : i < length (set_worker (v_workers v) i (Running Woken))).
  { apply nth_error_Some. rewrite nth_set, Nat.eqb_refl by exact Hlt. discriminate. }
  destruct (v_main v); cbn [v_workers]; rewrite nth_set, Nat.eqb_refl by exact Hl; reflexivity.
Qed.
Print Assumptions C159_shutdown_partial.
(* one that was is never told: it lasts until its peer ends it *)
Theorem C159_missed_shutdown_refuted d : exists es, shut_down (after d es) /\
  forall fs, ~ In (WFinished 0) fs -> exists w, nth_error (v_workers (after d (es ++ fs))) 0 = Some (Running w).
Proof.
  exists [Accept; WLoad 0; CallShutdown; WakeShutdown; WRegister 0]. split; [split; reflexivity|].
  intros fs Hn. exists Registered. rewrite after_app. apply stuck; [reflexivity|split; reflexivity|exact Hn].
Qed.
Print Assumptions C159_missed_shutdown_refuted.
(* a server that closed because its connections had ended has no connection, unless
   one came or was just leaving when graceful_shutdown() was called *)
Theorem C159_closed_when_empty_partial d es : settled d es -> v_main (after d es) = Closed ByEmpty ->
  open_connections (after d es) = 0.
Proof.
  intros Hs Hm. destruct (quiet_after d es Hs) as [Q _]. rewrite <- count_after. pose proof (q_main _ Q) as H. now rewrite Hm in H.
Qed.
Print Assumptions C159_closed_when_empty_partial.
(* otherwise it may close while it has connections *)
Theorem C159_closed_early_refuted d : exists es, v_main (after d es) = Closed ByEmpty /\
  nth_error (v_workers (after d es)) 1 = Some (Running Fresh) /\ v_shut (after d es) = Once false false.
Proof.
  exists [Accept; CallGraceful; WFinished 0; WDecrement 0; WCheck 0; WakeGraceful; Accept; InLoad; TakeGraceful; EndLoad; TakeEnd].
  repeat split.
Qed.
Print Assumptions C159_closed_early_refuted.
Theorem C159_closed_early_leaving_refuted d : exists es, v_main (after d es) = Closed ByEmpty /\
  nth_error (v_workers (after d es)) 1 = Some (Running Fresh) /\
  (forall pre post, es = pre ++ CallGraceful :: post -> ~ In Accept post).
Proof.
  exists [Accept; WFinished 0; WDecrement 0; Accept; CallGraceful; WCheck 0; WakeGraceful; InLoad; TakeGraceful; EndLoad; TakeEnd].
  split; [reflexivity|]. split; [reflexivity|]. intros pre post E.
  do 4 (destruct pre as [|? pre]; [discriminate E|injection E as _ E]).
  destruct pre as [|? pre]; [injection E as <-; intros H; repeat (destruct H as [H|H]; [discriminate|]); exact H|injection E as _ E].
  do 6 (destruct pre as [|? pre]; [discriminate E|injection E as _ E]). destruct pre; discriminate E.
Qed.
Print Assumptions C159_closed_early_leaving_refuted.

(* ---- C160: one connection ---- *)
(* the service is called with what the connection yields, in order and without gaps,
   and again only if it let the last message pass *)
Theorem C160_requests svc items : (exists rest, items = serve svc 0 items ++ rest) /\
  forall j x, nth_error (serve svc 0 items) (S j) = Some x -> svc j = Continue /\ exists m, nth_error items j = Some (Message m).
Proof.
  split; [apply serve_prefix|]. intros j x H. exact (serve_more svc items 0 j x H).
Qed.
Print Assumptions C160_requests.
(* a service that never objects gets everything, including the end or the error *)
Theorem C160_complete svc items : (forall j, svc j = Continue) -> serve svc 0 items = to_the_end items.
Proof. intros H. now apply serve_all. Qed.
Print Assumptions C160_complete.

(* ---- the hypotheses are met ---- *)
Definition demo : list event :=
  [OutLoad; OutRegister; InLoad; InRegister; Accept; WLoad 0; WRegister 0; Accept; CallShutdown; WakeShutdown].
Example C159_nonvacuous : clear_of_window true demo /\ shut_down (after true demo) /\
  v_workers (after true demo) = [Running Woken; Running Fresh] /\ v_main (after true demo) = Listening Woken Fresh /\
  let es := [Accept; InLoad; InRegister; CallGraceful; WakeGraceful; TakeGraceful; EndLoad; WFinished 0; WDecrement 0; EndRegister; WCheck 0; WakeEnd; TakeEnd] in
  v_main (after true es) = Closed ByEmpty /\ settled true es.
Proof.
  split; [|split; [split; reflexivity|split; [reflexivity|split; [reflexivity|split; [reflexivity|]]]]].
  - intros pre post E. do 9 (destruct pre as [|? pre]; [discriminate E|injection E as <- E]).
    destruct pre as [|? pre]; [|injection E as _ E; destruct pre; discriminate E].
    intros w [Hw|[Hw|[]]]; injection Hw as <-; discriminate.
  - intros pre post E. do 3 (destruct pre as [|? pre]; [discriminate E|injection E as <- E]).
    destruct pre as [|? pre]; [injection E as <-|injection E as <- E].
    + split; [intros H; repeat (destruct H as [H|H]; [discriminate|]); exact H|]. intros n [H|[]]. discriminate H.
    + do 9 (destruct pre as [|? pre]; [discriminate E|injection E as _ E]). destruct pre; discriminate E.
Qed.
Example C160_nonvacuous :
  serve (fun k => if Nat.eqb k 1 then CloseConnection else Continue) 0 [Message 1; Message 2; Message 3; End] = [Message 1; Message 2] /\
  to_the_end [Message 1; Failure 2; Message 3] = [Message 1; Failure 2].
Proof. split; reflexivity. Qed.
