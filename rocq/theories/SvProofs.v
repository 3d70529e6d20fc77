(* Proofs about the supervisors: the transitions as a relation, the invariants. *)
From Coq Require Import List Bool Arith Lia Permutation Sorted.
From Verif Require Import SvModel SvSpec.
Import ListNotations.

Section P.
Variable v : service.
Variable order : list nat.
Variable buffer : nat.
Notation step := (step v order buffer).
Notation after := (after v order buffer).
Notation reachable := (reachable v order buffer).

Definition push (l : listener) (m : command) : listener :=
  Listener (l_end l) (l_queue l ++ [m]) (l_subs l) (l_next l) (l_done l).
Definition taken (k : call) (c : nat) : control :=
  match k with
  | CSubscribe => Broadcasting c true order
  | CQuery => Broadcasting c false order
  | CUnsubscribe subs => Unsubscribing c (map (fun a => (a, named subs a)) order) None NotSent
  | CShutdown => ShuttingDown c order false
  end.
Definition bcmd (sub : bool) (c : nat) : command := if sub then ASubscribe c else AQuery c.
Definition give (g : list nat) (R : list (nat * reply)) (c : nat) (r : reply) :=
  if has c g then R else R ++ [(c, r)].

Inductive tr : state -> event -> state -> Prop :=
| T_panic q k L R cs rf pn gn x : buffer = 0 -> x <> CShutdown ->
  tr (State q k L R cs rf pn gn false) (Call x) (State q k L R (cs ++ [x]) rf (length cs :: pn) gn false)
| T_refuse q L R cs rf pn gn x : (buffer <> 0 \/ x = CShutdown) ->
  tr (State q Ended L R cs rf pn gn false) (Call x) (State q Ended L R (cs ++ [x]) (length cs :: rf) pn gn false)
| T_call q k L R cs rf pn gn x : (buffer <> 0 \/ x = CShutdown) -> k <> Ended -> length q < sup_capacity ->
  tr (State q k L R cs rf pn gn false) (Call x) (State (q ++ [(length cs, x)]) k L R (cs ++ [x]) rf pn gn false)
| T_giveup q k L R cs rf pn gn d c : c < length cs ->
  tr (State q k L R cs rf pn gn d) (GiveUp c) (State q k L R cs rf pn (c :: gn) d)
| T_drop q k L R cs rf pn gn d :
  tr (State q k L R cs rf pn gn d) DropHandles (State q k L R cs rf pn gn true)
| T_close L R cs rf pn gn :
  tr (State [] Idle L R cs rf pn gn true) Sup (State [] Ended L R cs rf pn gn true)
| T_take q L R cs rf pn gn d c x :
  tr (State ((c, x) :: q) Idle L R cs rf pn gn d) Sup (State q (taken x c) L R cs rf pn gn d)
| T_bdone q L R cs rf pn gn d c sub :
  tr (State q (Broadcasting c sub []) L R cs rf pn gn d) Sup (State q Idle L R cs rf pn gn d)
| T_bskip q L R cs rf pn gn d c sub a rest : alive (L a) = false ->
  tr (State q (Broadcasting c sub (a :: rest)) L R cs rf pn gn d) Sup (State q (Broadcasting c sub rest) L R cs rf pn gn d)
| T_bsend q L R cs rf pn gn d c sub a rest : alive (L a) = true -> length (l_queue (L a)) < listener_capacity ->
  tr (State q (Broadcasting c sub (a :: rest)) L R cs rf pn gn d) Sup
     (State q (Broadcasting c sub rest) (set_listener L a (push (L a) (bcmd sub c))) R cs rf pn gn d)
| T_udone q L R cs rf pn gn d c b w :
  tr (State q (Unsubscribing c [] b w) L R cs rf pn gn d) Sup (State q Idle L R cs rf pn gn d)
| T_unext q L R cs rf pn gn d c a rest b w :
  tr (State q (Unsubscribing c ((a, []) :: rest) b w) L R cs rf pn gn d) Sup
     (State q (Unsubscribing c rest None NotSent) L (give gn R c (Unsubscribed b)) cs rf pn gn d)
| T_uskip q L R cs rf pn gn d c a id ids rest b : alive (L a) = false ->
  tr (State q (Unsubscribing c ((a, id :: ids) :: rest) b NotSent) L R cs rf pn gn d) Sup
     (State q (Unsubscribing c ((a, ids) :: rest) b NotSent) L R cs rf pn gn d)
| T_usend q L R cs rf pn gn d c a id ids rest b : alive (L a) = true -> length (l_queue (L a)) < listener_capacity ->
  tr (State q (Unsubscribing c ((a, id :: ids) :: rest) b NotSent) L R cs rf pn gn d) Sup
     (State q (Unsubscribing c ((a, id :: ids) :: rest) b Sent) (set_listener L a (push (L a) (AUnsubscribe id))) R cs rf pn gn d)
| T_ulost q L R cs rf pn gn d c a id ids rest b b' : alive (L a) = false -> (b' = b \/ b' = Some a) ->
  tr (State q (Unsubscribing c ((a, id :: ids) :: rest) b Sent) L R cs rf pn gn d) Sup
     (State q (Unsubscribing c ((a, ids) :: rest) b' NotSent) L R cs rf pn gn d)
| T_uback q L R cs rf pn gn d c a id ids rest b :
  tr (State q (Unsubscribing c ((a, id :: ids) :: rest) b Replied) L R cs rf pn gn d) Sup
     (State q (Unsubscribing c ((a, ids) :: rest) (Some a) NotSent) L R cs rf pn gn d)
| T_sdone q L R cs rf pn gn d c w :
  tr (State q (ShuttingDown c [] w) L R cs rf pn gn d) Sup (State [] Ended L (give gn R c ShutDone) cs rf pn gn d)
| T_sskip q L R cs rf pn gn d c a rest w : alive (L a) = false ->
  tr (State q (ShuttingDown c (a :: rest) w) L R cs rf pn gn d) Sup (State q (ShuttingDown c rest false) L R cs rf pn gn d)
| T_ssend q L R cs rf pn gn d c a rest : alive (L a) = true -> length (l_queue (L a)) < listener_capacity ->
  tr (State q (ShuttingDown c (a :: rest) false) L R cs rf pn gn d) Sup
     (State q (ShuttingDown c (a :: rest) true) (set_listener L a (push (L a) (AShutdown c))) R cs rf pn gn d)
| T_aclose q L R cs rf pn gn d a : alive (L a) = true -> l_queue (L a) = [] ->
  tr (State q Ended L R cs rf pn gn d) (Act a) (State q Ended (set_listener L a (end_listener (L a) ChannelClosed)) R cs rf pn gn d)
| T_asub q k L R cs rf pn gn d a c rest : alive (L a) = true -> l_queue (L a) = ASubscribe c :: rest ->
  tr (State q k L R cs rf pn gn d) (Act a)
     (State q k (set_listener L a (Listener (l_end (L a)) rest
        (if match v with Bmp => true | _ => negb (has c gn) end then l_subs (L a) ++ [l_next (L a)] else l_subs (L a))
        (S (l_next (L a))) (l_done (L a) ++ [c]))) (give gn R c (Subscribed a (l_next (L a)))) cs rf pn gn d)
| T_aqry q k L R cs rf pn gn d a c rest : alive (L a) = true -> l_queue (L a) = AQuery c :: rest ->
  tr (State q k L R cs rf pn gn d) (Act a)
     (State q k (set_listener L a (Listener (l_end (L a)) rest (l_subs (L a)) (l_next (L a)) (l_done (L a) ++ [c])))
        (give gn R c (Answered a)) cs rf pn gn d)
| T_auns q k k' L R cs rf pn gn d a id rest : alive (L a) = true -> l_queue (L a) = AUnsubscribe id :: rest ->
  (match k with Unsubscribing c todo b Sent => k' = Unsubscribing c todo b Replied | _ => k' = k end) ->
  tr (State q k L R cs rf pn gn d) (Act a)
     (State q k' (set_listener L a (Listener (l_end (L a)) rest (filter (fun x => negb (x =? id)) (l_subs (L a))) (l_next (L a)) (l_done (L a)))) R cs rf pn gn d)
| T_ashut q k L R cs rf pn gn d a c rest : alive (L a) = true -> l_queue (L a) = AShutdown c :: rest ->
  tr (State q k L R cs rf pn gn d) (Act a) (State q k (set_listener L a (end_listener (L a) (ToldBy c))) R cs rf pn gn d)
| T_die q k L R cs rf pn gn d a : alive (L a) = true ->
  tr (State q k L R cs rf pn gn d) (Die a) (State q k (set_listener L a (end_listener (L a) Crashed)) R cs rf pn gn d)
| T_allgone q k L R cs rf pn gn d : k <> Ended -> (forall a, In a order -> alive (L a) = false) ->
  tr (State q k L R cs rf pn gn d) AllGone (State [] Ended L R cs rf pn gn d).

Lemma step_tr s e s' : step s e = Some s' -> tr s e s'.
Proof.
  destruct s as [q k L R cs rf pn gn d]. destruct e as [x|c| | |a|a|]; cbn [SvModel.step]; intros H.
  - unfold do_call in H. cbn [s_dropped s_calls s_queue s_control s_listeners s_replies s_refused s_panicked s_gone] in H.
    destruct d; [discriminate|].
    destruct (match x with CShutdown => false | _ => buffer =? 0 end) eqn:Ep.
    + inversion H; subst. apply T_panic; destruct x; try discriminate; apply Nat.eqb_eq in Ep; auto.
    + assert (Hb : buffer <> 0 \/ x = CShutdown).
      { destruct x; auto; left; apply Nat.eqb_neq; exact Ep. }
      destruct k; try (destruct (length q <? sup_capacity) eqn:El; [|discriminate]; apply Nat.ltb_lt in El; inversion H; subst; apply T_call; [exact Hb|discriminate|exact El]).
      inversion H; subst. apply T_refuse; exact Hb.
  - cbn [s_calls] in H. destruct (c <? length cs) eqn:E; [|discriminate]. apply Nat.ltb_lt in E. inversion H; subst. apply T_giveup; exact E.
  - inversion H; subst. apply T_drop.
  - unfold sup_step, send in H. cbn [s_dropped s_calls s_queue s_control s_listeners s_replies s_refused s_panicked s_gone] in H.
    destruct k as [|c sub todo|c todo b w|c todo w|].
    + destruct q as [|[c x] q].
      * destruct d; [|discriminate]. inversion H; subst. apply T_close.
      * inversion H; subst. apply (T_take q L R cs rf pn gn d c x).
    + destruct todo as [|a rest]; [inversion H; subst; apply T_bdone|].
      destruct (alive (L a)) eqn:Ea; [|inversion H; subst; apply T_bskip; exact Ea].
      destruct (length (l_queue (L a)) <? listener_capacity) eqn:El; [|discriminate]. apply Nat.ltb_lt in El.
      inversion H; subst. apply T_bsend; assumption.
    + destruct todo as [|[a [|id ids]] rest]; [inversion H; subst; apply T_udone|inversion H; subst; apply T_unext|].
      destruct w.
      * destruct (alive (L a)) eqn:Ea; [|inversion H; subst; apply T_uskip; exact Ea].
        destruct (length (l_queue (L a)) <? listener_capacity) eqn:El; [|discriminate]. apply Nat.ltb_lt in El.
        inversion H; subst. apply T_usend; assumption.
      * destruct (alive (L a)) eqn:Ea; [discriminate|]. inversion H; subst. apply T_ulost; [exact Ea|]. destruct v; auto.
      * inversion H; subst. apply T_uback.
    + destruct todo as [|a rest]; [inversion H; subst; apply T_sdone|]. destruct w.
      * destruct (alive (L a)) eqn:Ea; [discriminate|]. inversion H; subst. apply T_sskip; exact Ea.
      * destruct (alive (L a)) eqn:Ea; [|inversion H; subst; apply T_sskip; exact Ea].
        destruct (length (l_queue (L a)) <? listener_capacity) eqn:El; [|discriminate]. apply Nat.ltb_lt in El.
        inversion H; subst. apply T_ssend; assumption.
    + discriminate.
  - unfold act_step in H. cbn [s_listeners s_control] in H. destruct (alive (L a)) eqn:Ea; [|discriminate]. cbn [negb] in H.
    destruct (l_queue (L a)) as [|[c|c|id|c] rest] eqn:Eq.
    + destruct k; try discriminate. inversion H; subst. apply T_aclose; assumption.
    + inversion H; subst. apply (T_asub q k L R cs rf pn gn d a c rest); assumption.
    + inversion H; subst. apply (T_aqry q k L R cs rf pn gn d a c rest); assumption.
    + destruct k as [|c sub todo|c todo b [| |]|c todo w|]; inversion H; subst; eapply T_auns; eauto; cbn; reflexivity.
    + inversion H; subst. eapply T_ashut; eauto.
  - cbn [s_listeners] in H. destruct (alive (L a)) eqn:Ea; [|discriminate]. inversion H; subst. apply T_die; exact Ea.
  - cbn [s_control s_listeners] in H.
    assert (G : k <> Ended -> (if existsb (fun a => alive (L a)) order then None else Some (end_supervisor (State q k L R cs rf pn gn d))) = Some s' -> tr (State q k L R cs rf pn gn d) AllGone s').
    { intros Hk Hs. destruct (existsb _ order) eqn:Ex; [discriminate|]. inversion Hs; subst. apply T_allgone; [exact Hk|].
      intros a Ha. destruct (alive (L a)) eqn:E; [|reflexivity]. exfalso.
      assert (existsb (fun a => alive (L a)) order = true) by (apply existsb_exists; eauto). congruence. }
    destruct k; try (apply G; [discriminate|exact H]). discriminate.
Qed.

(* an invariant of the relation holds in every reachable state *)
Lemma inv_reachable (I : state -> Prop) : I (init order) ->
  (forall s e s', I s -> tr s e s' -> I s') -> forall s, reachable s -> I s.
Proof.
  intros H0 Hs s [es ->]. unfold SvModel.after. rewrite <- fold_left_rev_right.
  induction (rev es) as [|e l IH]; cbn [fold_right]; [exact H0|].
  unfold after_event at 1. destruct (SvModel.step v order buffer _ e) eqn:E; [|exact IH].
  eapply Hs; [exact IH|]. apply step_tr. exact E.
Qed.

Lemma reachable_step s e s' : reachable s -> step s e = Some s' -> reachable s'.
Proof.
  intros [es ->] H. exists (es ++ [e]). unfold SvModel.after in *. rewrite fold_left_app. cbn [fold_left]. unfold after_event at 1. rewrite H. reflexivity.
Qed.
Lemma reachable_runs s es s' : runs v order buffer s es s' -> reachable s -> reachable s'.
Proof. induction 1; intros Hr; [exact Hr|]. apply IHruns. eapply reachable_step; eauto. Qed.
(* an invariant from a given state on *)
Lemma inv_runs (I : state -> Prop) : (forall s e s', I s -> tr s e s' -> I s') ->
  forall s es s', runs v order buffer s es s' -> I s -> I s'.
Proof. intros Hs s es s' H. induction H; intros Hi; [exact Hi|]. apply IHruns. eapply Hs; [exact Hi|apply step_tr; eassumption]. Qed.

Lemma has_In c l : has c l = true <-> In c l.
Proof.
  unfold has. rewrite existsb_exists. split.
  - intros [x [Hx E]]. apply Nat.eqb_eq in E. subst. exact Hx.
  - intros H. exists c. split; [exact H|apply Nat.eqb_refl].
Qed.
Lemma has_nIn c l : has c l = false <-> ~ In c l.
Proof. rewrite <- has_In. destruct (has c l); split; congruence. Qed.
Lemma set_same L a l : set_listener L a l a = l.
Proof. unfold set_listener. rewrite Nat.eqb_refl. reflexivity. Qed.
Lemma set_other L a l b : b <> a -> set_listener L a l b = L b.
Proof. intros H. unfold set_listener. apply Nat.eqb_neq in H. rewrite H. reflexivity. Qed.
Lemma nth_snoc_old {A} (l : list A) x i y : nth_error l i = Some y -> nth_error (l ++ [x]) i = Some y.
Proof. intros H. rewrite nth_error_app1; [exact H|]. apply nth_error_Some. congruence. Qed.
Lemma nth_snoc_new {A} (l : list A) x : nth_error (l ++ [x]) (length l) = Some x.
Proof. rewrite nth_error_app2 by lia. rewrite Nat.sub_diag. reflexivity. Qed.
End P.
