(* Facts about the listener model. *)
From Coq Require Import List Bool Arith Lia Permutation.
From Verif Require Import LpModel LpSpec LpProofs.
Import ListNotations.

Section L.
Variable dynamic : bool.
Variable n : nat.
Variable peers : list nat.
Variable handles : list (nat * nat).
Notation lreach := (lreach dynamic n peers handles).
Notation sound := (sound_handles peers handles).
Notation arrived := (arrived n).

Lemma has_in x l : has x l = true <-> In x l.
Proof. apply has_In. Qed.
Lemma lafter_app s es e : lafter dynamic s (es ++ [e]) = lafter_event dynamic (lafter dynamic s es) e.
Proof. unfold lafter. rewrite fold_left_app. reflexivity. Qed.
Lemma arrived_app es fs : arrived (es ++ fs) = arrived es ++ arrived fs.
Proof. unfold LpSpec.arrived. apply flat_map_app. Qed.

(* [h]: connections in the hands of the running function *)
Record LInv (arr : list (nat * nat)) (s : lstate) (h : list (nat * nat)) : Prop := {
  J_len : length (l_sockets s) = n;
  J_next : l_next s = length (l_known s);
  J_known : exists l, rev (l_known s) = peers ++ l;
  J_h : forall k g, find_key k handles = Some g -> find_key k (l_handles s) = Some g;
  J_hs : sound -> forall k g, In (k, g) (l_handles s) -> peer_for s k g;
  J_ctl : match l_control s with
          | First k c g => peer_for s k g /\ In (k, c) arr /\ find_key k (l_handles s) = None
          | Outcome k g => peer_for s k g /\ find_key k (l_handles s) = None
          | _ => True
          end;
  J_back : forall sk k c, In sk (l_sockets s) -> In (Conn k c) (k_backlog sk) -> In (k, c) arr;
  J_hand : forall k c, In (k, c) h -> In (k, c) arr;
  J_given : forall g c, In (g, c) (l_given s) -> exists k, In (k, c) arr /\ (sound -> peer_for s k g) /\ (forall g', find_key k handles = Some g' -> g = g');
  J_closed : forall c, In c (l_closed s) -> exists k, In (k, c) arr /\ forall g, find_key k handles = Some g -> In g (l_ended s);
  J_perm : Permutation (map snd arr) (map snd h ++ everywhere s);
  J_nodup : NoDup peers -> NoDup (l_known s) }.

Lemma linv_init : LInv [] (linit n (rev peers) handles) [].
Proof.
  constructor; cbn; auto; try contradiction.
  - apply repeat_length.
  - exists []. rewrite rev_involutive. symmetry. apply app_nil_r.
  - intros Hs k g Hi. unfold peer_for. cbn. rewrite rev_involutive. exact (Hs k g Hi).
  - intros sk k c Hi. apply repeat_spec in Hi. subst sk. contradiction.
  - unfold everywhere, held. cbn. induction n as [|m IH]; [constructor|exact IH].
  - apply NoDup_rev.
Qed.

(* a connection in hand is given to a peer *)
Lemma linv_give arr s h k c g :
  LInv arr s ((k, c) :: h) -> (sound -> peer_for s k g) -> (forall g', find_key k handles = Some g' -> g = g') ->
  LInv arr (give s g c) h.
Proof.
  intros J Hp Hg. destruct J as [A1 A2 A3 A4 A5 A6 A7 A8 A9 A10 A11 A12]. unfold give. destruct (has g (l_ended s)) eqn:E.
  - constructor; cbn; auto.
    + intros k' c' Hi. apply A8. right. exact Hi.
    + intros c' [<-|Hi]; [|auto]. exists k. split; [apply A8; left; reflexivity|]. intros g' Hg'. rewrite <- (Hg g' Hg'). apply has_in. exact E.
    + rewrite A11. unfold everywhere, held. cbn. clear. set (a := map snd h). set (b := map snd (l_given s)).
      set (x := l_closed s ++ _). change (Permutation (c :: a ++ b ++ x) (a ++ b ++ c :: x)). rewrite !(app_assoc a b). apply Permutation_middle.
  - constructor; cbn; auto.
    + intros k' c' Hi. apply A8. right. exact Hi.
    + intros g' c' Hi. apply in_app_or in Hi. destruct Hi as [Hi|[Hi|[]]]; [exact (A9 g' c' Hi)|]. injection Hi as <- <-.
      exists k. split; [apply A8; left; reflexivity|]. auto.
    + rewrite A11. unfold everywhere, held. cbn. rewrite map_app. cbn. clear. set (a := map snd h). set (b := map snd (l_given s)).
      set (x := l_closed s ++ _). change (Permutation (c :: a ++ b ++ x) (a ++ (b ++ [c]) ++ x)).
      rewrite <- (app_assoc b). cbn. rewrite !(app_assoc a b). apply Permutation_middle.
Qed.
Lemma linv_close arr s h k c :
  LInv arr s ((k, c) :: h) -> find_key k handles = None -> LInv arr (close s c) h.
Proof.
  intros J Hn. destruct J as [A1 A2 A3 A4 A5 A6 A7 A8 A9 A10 A11 A12]. constructor; cbn; auto.
  - intros k' c' Hi. apply A8. right. exact Hi.
  - intros c' [<-|Hi]; [|auto]. exists k. split; [apply A8; left; reflexivity|]. congruence.
  - rewrite A11. unfold everywhere, held. cbn. clear. set (a := map snd h). set (b := map snd (l_given s)).
    set (x := l_closed s ++ _). change (Permutation (c :: a ++ b ++ x) (a ++ b ++ c :: x)). rewrite !(app_assoc a b). apply Permutation_middle.
Qed.
(* the control moves *)
Lemma linv_control arr s h ctl : LInv arr s h -> held s = [] ->
  match ctl with First _ _ _ => False | Outcome k g => peer_for s k g /\ find_key k (l_handles s) = None | _ => True end ->
  LInv arr (with_control s ctl) h.
Proof.
  intros [A1 A2 A3 A4 A5 A6 A7 A8 A9 A10 A11 A12] Hh Hc. constructor; cbn; auto.
  - destruct ctl; auto. contradiction.
  - rewrite A11. unfold everywhere. rewrite Hh. unfold held. cbn. destruct ctl; try reflexivity. contradiction.
Qed.
Lemma linv_unhold arr s k c g ctl : LInv arr s [] -> l_control s = First k c g ->
  match ctl with First _ _ _ => False | Outcome k g => peer_for s k g /\ find_key k (l_handles s) = None | _ => True end ->
  LInv arr (with_control s ctl) [(k, c)].
Proof.
  intros [A1 A2 A3 A4 A5 A6 A7 A8 A9 A10 A11 A12] Hh Hc. rewrite Hh in A6. constructor; cbn; auto.
  - destruct ctl; auto. contradiction.
  - intros k' c' [Hi|[]]. injection Hi as <- <-. apply A6.
  - rewrite A11. unfold everywhere. unfold held. rewrite Hh. cbn. replace (match ctl with First _ c0 _ => [c0] | _ => [] end) with (@nil nat) by (destruct ctl; auto; contradiction).
    cbn. set (x := map snd (l_given s)). set (y := l_closed s). set (z := flat_map waiting_in (l_sockets s)).
    rewrite !(app_assoc x y). symmetry. apply Permutation_middle.
Qed.
(* only the tasks that ended *)
Lemma linv_end arr s h g : LInv arr s h ->
  LInv arr (LState (l_sockets s) (l_control s) (l_handles s) (l_known s) (l_next s) (g :: l_ended s) (l_given s) (l_closed s)) h.
Proof.
  intros [A1 A2 A3 A4 A5 A6 A7 A8 A9 A10 A11 A12]. constructor; cbn; auto.
  intros c Hi. destruct (A10 c Hi) as (k & H1 & H2). exists k. split; [exact H1|]. intros g' Hg. right. eauto.
Qed.
Lemma upd_In {A} i (f : A -> A) l x : In x (upd i f l) -> In x l \/ exists y, nth_error l i = Some y /\ x = f y.
Proof.
  revert i. induction l as [|a l IH]; intros i H; [destruct i; contradiction|]. destruct i; cbn in *.
  - destruct H as [<-|H]; eauto.
  - destruct H as [<-|H]; [auto|]. destruct (IH i H); auto.
Qed.
(* one is taken from the backlog *)
Lemma linv_take arr s i x rest b ctl : LInv arr s [] -> held s = [] -> nth_error (l_sockets s) i = Some (Socket (x :: rest) b) -> (ctl = Head \/ ctl = Next) ->
  LInv arr (LState (upd i (fun _ => Socket rest false) (l_sockets s)) ctl (l_handles s) (l_known s) (l_next s) (l_ended s) (l_given s) (l_closed s))
       (match x with Conn k c => [(k, c)] | AcceptError => [] end).
Proof.
  intros [A1 A2 A3 A4 A5 A6 A7 A8 A9 A10 A11 A12] Hh Hi Hc. constructor; cbn; auto.
  - rewrite upd_length. exact A1.
  - destruct Hc as [->| ->]; exact I.
  - intros sk k c Hs Hb. apply upd_In in Hs. destruct Hs as [Hs|(y & Ey & ->)]; [eauto|]. cbn in Hb. apply nth_error_In in Hi. eapply A7; [exact Hi|right; exact Hb].
  - intros k c Hx. destruct x as [k' c'|]; [|contradiction]. destruct Hx as [Hx|[]]. injection Hx as <- <-. apply nth_error_In in Hi. eapply A7; [exact Hi|left; reflexivity].
  - assert (P : Permutation (flat_map waiting_in (l_sockets s)) (map snd (match x with Conn k c => [(k, c)] | AcceptError => [] end) ++
       flat_map waiting_in (upd i (fun _ => Socket rest false) (l_sockets s)))).
    { clear -Hi. revert i Hi. induction (l_sockets s) as [|a l IH]; intros i Hi; [destruct i; discriminate|]. destruct i; cbn in Hi.
      - injection Hi as ->. cbn. destruct x; cbn; reflexivity.
      - cbn. rewrite (IH i Hi). clear. set (w := waiting_in a). set (m := map snd _). set (r := flat_map _ _). rewrite !app_assoc. apply Permutation_app_tail. apply Permutation_app_comm. }
    rewrite A11. unfold everywhere, held at 2. rewrite Hh. cbn. rewrite P. replace (match ctl with First _ c0 _ => [c0] | _ => [] end) with (@nil nat) by (destruct Hc as [->| ->]; reflexivity).
    clear. cbn. generalize (map snd (match x with Conn k c => [(k, c)] | AcceptError => [] end)) as m. intros m.
    generalize (map snd (l_given s)) as a, (l_closed s) as b. intros a b. rewrite !app_assoc. apply Permutation_app_tail.
    rewrite <- (app_assoc m). apply Permutation_app_comm.
Qed.
Lemma nth_rev_snoc {A} (l : list A) x : nth_error (rev (x :: l)) (length l) = Some x.
Proof. cbn. rewrite nth_error_app2 by (rewrite rev_length; lia). rewrite rev_length, Nat.sub_diag. reflexivity. Qed.
Lemma nth_rev_mono {A} (l : list A) x g y : nth_error (rev l) g = Some y -> nth_error (rev (x :: l)) g = Some y.
Proof. intros H. cbn. rewrite nth_error_app1; [exact H|]. apply nth_error_Some. congruence. Qed.
(* a new peer *)
Lemma linv_first arr s k c : LInv arr s [(k, c)] -> held s = [] -> find_key k (l_handles s) = None -> has k (l_known s) = false ->
  LInv arr (LState (l_sockets s) (First k c (l_next s)) (l_handles s) (k :: l_known s) (S (l_next s)) (l_ended s) (l_given s) (l_closed s)) [].
Proof.
  intros [A1 A2 A3 A4 A5 A6 A7 A8 A9 A10 A11 A12] Hh Hf Hk. constructor; cbn; auto.
  - destruct A3 as [l E]. exists (l ++ [k]). rewrite E. symmetry. apply app_assoc.
  - intros Hs k' g Hi. apply nth_rev_mono. apply A5; assumption.
  - unfold peer_for. cbn [l_known]. rewrite A2, nth_rev_snoc. split; [reflexivity|]. split; [apply A8; left; reflexivity|exact Hf].
  - contradiction.
  - intros g c' Hi. destruct (A9 g c' Hi) as (k' & H1 & H2 & H3). exists k'. repeat split; auto. intros Hs. apply nth_rev_mono. apply H2. exact Hs.
  - rewrite A11. unfold everywhere. rewrite Hh. unfold held. cbn. set (x := map snd (l_given s)). set (y := l_closed s). set (z := flat_map waiting_in (l_sockets s)).
    rewrite !(app_assoc x y). apply Permutation_middle.
  - intros Hn. constructor; [|auto]. intros Hi. apply has_in in Hi. congruence.
Qed.
Lemma linv_accept arr s k c : LInv arr s [(k, c)] -> held s = [] -> LInv arr (accept_peer_connection dynamic s k c) [].
Proof.
  intros J Hh. unfold accept_peer_connection. destruct (find_key k (l_handles s)) as [g|] eqn:E.
  - eapply linv_give; [exact J| |].
    + intros Hs. apply (J_hs _ _ _ J Hs). apply find_key_some. exact E.
    + intros g' Hg. apply (J_h _ _ _ J) in Hg. congruence.
  - assert (N : find_key k handles = None).
    { destruct (find_key k handles) as [g|] eqn:Eh; [|reflexivity]. apply (J_h _ _ _ J) in Eh. congruence. }
    destruct (negb dynamic); [eapply linv_close; eauto|]. destruct (has k (l_known s)) eqn:Ek; [eapply linv_close; eauto|].
    apply linv_first; assumption.
Qed.
Lemma linv_arr arr s x : LInv arr s [] -> forall i, i < n ->
  LInv (arr ++ match x with Conn k c => [(k, c)] | AcceptError => [] end)
    (LState (upd i (fun k => Socket (k_backlog k ++ [x]) (k_armed k)) (l_sockets s)) (l_control s)
            (l_handles s) (l_known s) (l_next s) (l_ended s) (l_given s) (l_closed s)) [].
Proof.
  intros [A1 A2 A3 A4 A5 A6 A7 A8 A9 A10 A11 A12] i Hi. constructor; cbn; auto.
  - rewrite upd_length. exact A1.
  - destruct (l_control s); auto. destruct A6 as (H1 & H2 & H3). repeat split; auto. apply in_or_app; auto.
  - intros sk k c Hs Hb. apply in_or_app. apply upd_In in Hs. destruct Hs as [Hs|(y & Ey & ->)]; [left; eauto|]. cbn in Hb. apply in_app_or in Hb.
    destruct Hb as [Hb|[->|[]]]; [|right; left; reflexivity]. left. apply nth_error_In in Ey. eauto.
  - contradiction.
  - intros g c Hg. destruct (A9 g c Hg) as (k & H1 & H2). exists k. split; [apply in_or_app; auto|exact H2].
  - intros c Hg. destruct (A10 c Hg) as (k & H1 & H2). exists k. split; [apply in_or_app; auto|exact H2].
  - rewrite map_app, A11. assert (P : Permutation (flat_map waiting_in (upd i (fun k => Socket (k_backlog k ++ [x]) (k_armed k)) (l_sockets s)))
       (flat_map waiting_in (l_sockets s) ++ map snd (match x with Conn k c => [(k, c)] | AcceptError => [] end))).
    { rewrite <- A1 in Hi. clear -Hi. revert i Hi. induction (l_sockets s) as [|a l IH]; intros i Hi; [cbn in Hi; lia|]. destruct i; cbn.
      - unfold waiting_in at 1. cbn. rewrite flat_map_app. cbn. fold (waiting_in a). rewrite app_nil_r.
        replace (match x with Conn _ c => [c] | AcceptError => [] end) with (map snd (match x with Conn k c => [(k, c)] | AcceptError => [] end)) by (destruct x; reflexivity).
        rewrite <- !app_assoc. apply Permutation_app_head. apply Permutation_app_comm.
      - cbn in Hi. rewrite (IH i) by lia. rewrite app_assoc. reflexivity. }
    unfold everywhere, held. cbn. rewrite P. rewrite !app_assoc. reflexivity.
Qed.

Lemma same_sockets s f : (forall k, k_backlog (f k) = k_backlog k) -> flat_map waiting_in (map f (l_sockets s)) = flat_map waiting_in (l_sockets s).
Proof. intros H. induction (l_sockets s) as [|a l IH]; [reflexivity|]. cbn. rewrite IH. unfold waiting_in. rewrite H. reflexivity. Qed.
Lemma linv_step es s e : LInv (arrived es) s [] -> LInv (arrived (es ++ [e])) (lafter_event dynamic s e) [].
Proof.
  intros J. rewrite arrived_app. unfold lafter_event. destruct e as [i x| |i|g st|g].
  - cbn [lstep LpSpec.arrived flat_map]. rewrite (J_len _ _ _ J). destruct (Nat.ltb_spec i n) as [Hi|Hi].
    + rewrite app_nil_r. apply (linv_arr _ _ x J i Hi).
    + replace (match x with Conn k c => [] | AcceptError => [] end ++ []) with (@nil (nat * nat)) by (destruct x; reflexivity). rewrite app_nil_r. exact J.
  - cbn [LpSpec.arrived flat_map]. rewrite app_nil_r. cbn [lstep]. destruct (l_control s) eqn:Ec; try exact J.
    + destruct J as [A1 A2 A3 A4 A5 A6 A7 A8 A9 A10 A11 A12]. constructor; cbn; auto.
      * rewrite map_length. exact A1.
      * intros sk k c Hs Hb. apply in_map_iff in Hs. destruct Hs as (sk' & <- & Hs). cbn in Hb. eauto.
      * rewrite A11. unfold everywhere, held. rewrite Ec. cbn. rewrite same_sockets by reflexivity. reflexivity.
    + destruct (existsb k_armed (l_sockets s)); [exact J|]. apply linv_control; [exact J|unfold held; rewrite Ec; reflexivity|exact I].
  - cbn [LpSpec.arrived flat_map]. rewrite app_nil_r. cbn [lstep]. destruct (l_control s) eqn:Ec; try exact J.
    destruct (nth_error (l_sockets s) i) as [[[|x rest] [|]]|] eqn:Ei; try exact J.
    assert (Hh : held s = []) by (unfold held; rewrite Ec; reflexivity).
    destruct x as [k c|].
    + apply linv_accept; [|reflexivity]. apply (linv_take _ _ i (Conn k c) rest true Next J Hh Ei). auto.
    + apply (linv_take _ _ i AcceptError rest true Head J Hh Ei). auto.
  - cbn [LpSpec.arrived flat_map]. rewrite app_nil_r. cbn [lstep]. destruct (has g (l_ended s) || negb (g <? l_next s)); [exact J|].
    destruct (l_control s) as [| |k c g'|k g'] eqn:Ec; try exact J; destruct (Nat.eqb_spec g' g) as [->|]; try exact J.
    + pose proof (J_ctl _ _ _ J) as Hc. rewrite Ec in Hc. destruct Hc as (H1 & H2 & H3).
      assert (G : with_control (give s g c) (Outcome k g) = give (with_control s (Outcome k g)) g c).
      { unfold give, with_control. cbn [l_ended]. destruct (has g (l_ended s)); reflexivity. }
      rewrite G. apply (linv_give _ _ [] k).
      * eapply linv_unhold; [exact J|exact Ec|auto].
      * intros _. exact H1.
      * intros g' Hg. apply (J_h _ _ _ J) in Hg. congruence.
    + pose proof (J_ctl _ _ _ J) as Hc. rewrite Ec in Hc. destruct Hc as (H1 & H3).
      assert (Hh : held s = []) by (unfold held; rewrite Ec; reflexivity).
      destruct st; try exact J.
      * apply linv_control; auto.
      * apply (fun K => linv_control _ _ [] Next K) in J; auto. destruct J as [A1 A2 A3 A4 A5 A6 A7 A8 A9 A10 A11 A12]. constructor; cbn; auto.
        -- intros k' g' Hg. apply A4 in Hg. cbn in Hg. unfold find_key in *. cbn. destruct (Nat.eqb_spec k k') as [<-|]; [|exact Hg]. rewrite H3 in Hg. discriminate.
        -- intros Hs k' g' [Hi|Hi]; [injection Hi as <- <-; exact H1|]. apply A5; assumption.
  - cbn [LpSpec.arrived flat_map]. rewrite app_nil_r. cbn [lstep]. destruct (has g (l_ended s) || negb (g <? l_next s)); [exact J|].
    pose proof (linv_end _ _ _ g J) as J1. set (s1 := LState _ _ _ _ _ _ _ _) in *.
    destruct (l_control s) as [| |k c g'|k g'] eqn:Ec; try exact J1; destruct (Nat.eqb_spec g' g) as [->|]; try exact J1.
    + pose proof (J_ctl _ _ _ J) as Hc. rewrite Ec in Hc. destruct Hc as (H1 & H2 & H3).
      assert (G : with_control (give s1 g c) Next = give (with_control s1 Next) g c).
      { unfold give, with_control. cbn [l_ended]. destruct (has g (l_ended s1)); reflexivity. }
      rewrite G. apply (linv_give _ _ [] k).
      * eapply linv_unhold; [exact J1|exact eq_refl|exact I].
      * intros _. exact H1.
      * intros g' Hg. apply (J_h _ _ _ J) in Hg. congruence.
    + apply linv_control; [exact J1|reflexivity|exact I].
Qed.
Lemma linv es : LInv (arrived es) (lreach es) [].
Proof.
  induction es as [|e es IH] using rev_ind; [exact linv_init|]. unfold LpSpec.lreach in *. rewrite lafter_app. apply linv_step. exact IH.
Qed.
Lemma lafter_inv (J : lstate -> Prop) : (forall s e s', J s -> lstep dynamic s e = Some s' -> J s') -> forall es s, J s -> J (lafter dynamic s es).
Proof.
  intros H es. unfold lafter. induction es as [|e es IH]; intros s Hs; [exact Hs|]. cbn [fold_left]. apply IH.
  unfold lafter_event. destruct (lstep dynamic s e) eqn:E; [eapply H; eauto|exact Hs].
Qed.
End L.
