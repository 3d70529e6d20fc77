From Coq Require Import NArith List Bool String Ascii Decimal DecimalString DecimalN DecimalFacts Lia.
Import ListNotations.
From Verif Require Import TeModel TeSpec.
Open Scope string_scope.

Fixpoint assoc {A} (k : string) (l : list (string * A)) : option A :=
  match l with
  | [] => None
  | (k', a) :: r => if String.eqb k k' then Some a else assoc k r
  end.
Fixpoint distinct (l : list string) : bool :=
  match l with
  | [] => true
  | k :: r => forallb (fun k' => negb (String.eqb k k')) r && distinct r
  end.

Lemma get_absent k (l : list (string * option json)) :
  forallb (fun k' => negb (String.eqb k k')) (map fst l) = true -> get k (obj l) = None.
Proof.
  induction l as [|[k' [j|]] r IH]; cbn; intro H; auto;
    apply andb_true_iff in H; destruct H as [H1 H2]; auto.
  apply negb_true_iff in H1. rewrite H1. auto.
Qed.
Lemma get_obj k (l : list (string * option json)) : distinct (map fst l) = true ->
  get k (obj l) = match assoc k l with Some x => x | None => None end.
Proof.
  induction l as [|[k' x] r IH]; [reflexivity|]. cbn [map fst distinct assoc].
  intro H. apply andb_true_iff in H. destruct H as [H1 H2].
  destruct (String.eqb k k') eqn:E.
  - destruct x as [j|]; cbn [obj].
    + cbn [get]. now rewrite E.
    + apply String.eqb_eq in E; subst. now apply get_absent.
  - destruct x as [j|]; cbn [obj]; [cbn [get]; rewrite E|]; auto.
Qed.

Lemma opt_w {A} (f : A -> json) dec k l x : distinct (map fst l) = true ->
  assoc k l = Some (w f x) -> (forall a, x = Some a -> dec (f a) = Some a /\ f a <> JNull) ->
  opt dec k (obj l) = Some x.
Proof.
  intros D H F. unfold opt. rewrite get_obj, H by auto. destruct x as [a|]; [|reflexivity].
  cbn [w option_map]. destruct (F a eq_refl) as [F1 F2].
  destruct (f a) eqn:E; [congruence|..]; now rewrite F1.
Qed.
Lemma opt_any k l x : distinct (map fst l) = true -> assoc k l = Some x ->
  x <> Some JNull -> opt dec_any k (obj l) = Some x.
Proof.
  intros D H F. unfold opt. rewrite get_obj, H by auto. destruct x as [[]|]; try reflexivity.
  congruence.
Qed.
Lemma req_w {A} (f : A -> json) dec k l a : distinct (map fst l) = true ->
  assoc k l = Some (Some (f a)) -> dec (f a) = Some a -> req dec k (obj l) = Some a.
Proof. intros D H F. unfold req. now rewrite get_obj, H by auto. Qed.

Fixpoint variant (l : list (string * option json)) : option (string * json) :=
  match l with
  | [] => None
  | (k, Some j) :: r => if String.eqb k "periodic" || String.eqb k "on-change"
                        then Some (k, j) else variant r
  | (k, None) :: r => variant r
  end.
Lemma first_variant_obj l : first_variant (obj l) = variant l.
Proof. induction l as [|[k [j|]] r IH]; cbn [obj first_variant variant]; auto. now rewrite IH. Qed.

(* labels *)
Lemma u64_round n : (n < 2 ^ 64)%N -> text_u64 (u64_text n) = Some n.
Proof.
  intro H. unfold text_u64, u64_text.
  assert (D : digits_u64 (NilZero.string_of_uint (N.to_uint n)) = Some n).
  { unfold digits_u64. rewrite NilZero.usu.
    - rewrite DecimalN.Unsigned.of_to.
      replace (N.ltb n 18446744073709551616) with true; [reflexivity|].
      symmetry. apply N.ltb_lt. exact H.
    -
      intro E. pose proof (DecimalN.Unsigned.of_to n) as Z. rewrite E in Z. cbn in Z.
      subst n. discriminate. }
  destruct (NilZero.string_of_uint (N.to_uint n)) as [|c r] eqn:E; [discriminate D|].
  destruct (Ascii.eqb c "+") eqn:C; auto.
  exfalso. apply Ascii.eqb_eq in C. subst c. unfold digits_u64 in D. cbn in D.
  destruct (NilEmpty.uint_of_string r); discriminate D.
Qed.

Lemma value_acc d : forall a,
  value (Npos a) (NilEmpty.string_of_uint d) = Some (Npos (Pos.of_uint_acc d a)).
Proof.
  induction d; intro a; [reflexivity|..];
    cbn [NilEmpty.string_of_uint value Pos.of_uint_acc];
    cbv zeta;
    match goal with |- (if ?b then value ?x _ else _) = _ =>
      change b with true; cbv iota;
      match goal with |- _ = Some (Npos (Pos.of_uint_acc _ ?y)) =>
        assert (X : x = Npos y) by
          (match x with (?p + ?q)%N => let q' := eval compute in q in change q with q' end; lia);
        rewrite X; clear X end end;
    apply IHd.
Qed.
Lemma value_start d : value 0 (NilEmpty.string_of_uint d) = Some (N.of_uint d).
Proof.
  induction d; [reflexivity|..]; cbn [NilEmpty.string_of_uint value]; cbv zeta;
    match goal with |- (if ?b then value ?x _ else _) = _ => change b with true; cbv iota end.
  - exact IHd.
  - apply (value_acc d 1).
  - apply (value_acc d 2).
  - apply (value_acc d 3).
  - apply (value_acc d 4).
  - apply (value_acc d 5).
  - apply (value_acc d 6).
  - apply (value_acc d 7).
  - apply (value_acc d 8).
  - apply (value_acc d 9).
Qed.
Lemma text_value n : value 0 (u64_text n) = Some n.
Proof.
  unfold u64_text. rewrite <- (DecimalN.Unsigned.of_to n) at 2.
  destruct (N.to_uint n) eqn:E; try apply value_start. reflexivity.
Qed.

Lemma label_round l : fits l -> read_label (write_label l) = Some l.
Proof.
  destruct l as [name [n|s|j]]; intro F.
  - change (bind (match text_u64 (u64_text n) with Some n => Some (NumberValue n) | None => None end)
              (fun v => Some (mk_label name v)) = Some (mk_label name (NumberValue n))).
    rewrite u64_round; [reflexivity|]. now apply F.
  - reflexivity.
  - reflexivity.
Qed.
Lemma labels_round l : Forall fits l -> dec_list read_label (map write_label l) = Some l.
Proof.
  induction 1 as [|x l H _ IH]; [reflexivity|]. cbn [map dec_list].
  now rewrite label_round, IH.
Qed.
Lemma operator_round l : l <> [] -> Forall fits l -> read_operator (write_operator l) = Some l.
Proof.
  intros NE F. destruct l as [|x l]; [congruence|].
  unfold read_operator, write_operator. cbn [dec_obj bind obj]. unfold req.
  change (get "labels" [("labels", JArr (map write_label (x :: l)))])
    with (Some (JArr (map write_label (x :: l)))).
  now apply labels_round.
Qed.
Lemma operator_empty : read_operator (write_operator []) = None.
Proof. reflexivity. Qed.

Lemma event_round e : read_event (write_event e) = Some e.
Proof. destruct e; reflexivity. Qed.
Lemma session_round e : read_session (write_session e) = Some e.
Proof. destruct e; reflexivity. Qed.

Section L.
Context {leaf : kind -> Type}.
Variable enc : forall k, leaf k -> json.
Variable dec : forall k, json -> option (leaf k).
Hypothesis law : lawful enc dec.

Lemma lf k x : forall a, x = Some a -> dec k (enc k a) = Some a /\ enc k a <> JNull.
Proof. intros a _. apply law. Qed.
Lemma st (x : option string) : forall a, x = Some a -> dec_str (JStr a) = Some a /\ JStr a <> JNull.
Proof. intros a _. split; [reflexivity|discriminate]. Qed.
Lemma bo (x : option bool) : forall a, x = Some a -> dec_bool (JBool a) = Some a /\ JBool a <> JNull.
Proof. intros a _. split; [reflexivity|discriminate]. Qed.

Ltac step :=
  first [ erewrite (opt_w (enc _)); [cbn [bind]|reflexivity|reflexivity|apply lf]
        | erewrite (opt_w JStr); [cbn [bind]|reflexivity|reflexivity|apply st]
        | erewrite (opt_w JBool); [cbn [bind]|reflexivity|reflexivity|apply bo] ].

Lemma manifest_round m : read_manifest leaf dec (write_manifest leaf enc m) = Some m.
Proof.
  unfold read_manifest, write_manifest. cbn [dec_obj bind]. repeat step.
  destruct m; reflexivity.
Qed.
Lemma manifest_not_null m : write_manifest leaf enc m <> JNull.
Proof. discriminate. Qed.

Lemma trigger_round s :
  read_trigger leaf dec
    (match write_subscription leaf enc s with JObj o => o | _ => [] end) = s_trigger leaf s.
Proof.
  unfold read_trigger, write_subscription. rewrite first_variant_obj.
  destruct s as [i f stp tr en pu t mo ci]. cbn [s_trigger].
  assert (V : forall l1 l2, forallb (fun p => negb (String.eqb (fst p) "periodic" || String.eqb (fst p) "on-change")) l1 = true ->
             variant (l1 ++ l2) = variant l2).
  { induction l1 as [|[k x] r IH]; intros l2 H; [reflexivity|].
    apply andb_true_iff in H; destruct H as [H1 H2].
    apply negb_true_iff in H1. unfold fst in H1. specialize (IH l2 H2).
    destruct x as [j|]; cbn [List.app variant]; [|exact IH]. rewrite H1. exact IH. }
  match goal with |- context [variant (?a :: ?b :: ?c :: ?d :: ?e :: ?g :: ?h :: ?k :: ?m :: ?r)] =>
    change (variant (a :: b :: c :: d :: e :: g :: h :: k :: m :: r))
      with (variant ([a; b; c; d; e; g; h; k; m] ++ r)) end.
  rewrite V by reflexivity.
  destruct t as [[p a|d b e]|].
  - cbn [variant String.eqb Ascii.eqb Bool.eqb orb bind write_trigger_body dec_obj s_trigger].
    repeat step. reflexivity.
  - cbn [variant String.eqb Ascii.eqb Bool.eqb orb bind write_trigger_body dec_obj s_trigger].
    repeat step. reflexivity.
  - destruct ci; reflexivity.
Qed.

Lemma subscription_round s : f_subtree (s_filter leaf s) <> Some JNull ->
  read_subscription leaf dec (write_subscription leaf enc s) = Some s.
Proof.
  intro N. pose proof (trigger_round s) as T.
  unfold read_subscription. unfold write_subscription at 1.
  cbn [dec_obj bind]. unfold write_subscription in T. 
  do 4 step.
  erewrite opt_any; [cbn [bind]|reflexivity|reflexivity|exact N].
  do 4 step.
  erewrite (req_w (enc Modules)); [cbn [bind]|reflexivity|reflexivity|apply law].
  step. rewrite T. destruct s as [i [] stp tr en pu t mo ci]; reflexivity.
Qed.

Lemma metadata_round t :
  (forall s, t_sub leaf t = Some s -> f_subtree (s_filter leaf s) <> Some JNull) ->
  read_metadata leaf dec (write_metadata leaf enc t) = Some t.
Proof.
  intro N. unfold read_metadata, write_metadata. cbn [dec_obj bind].
  step.
  erewrite (req_w (enc Time)); [cbn [bind]|reflexivity|reflexivity|apply law].
  erewrite (req_w write_event); [cbn [bind]|reflexivity|reflexivity|apply event_round].
  step.
  erewrite (req_w write_session); [cbn [bind]|reflexivity|reflexivity|apply session_round].
  erewrite (req_w (enc Addr)); [cbn [bind]|reflexivity|reflexivity|apply law].
  do 3 step.
  erewrite (opt_w (write_subscription leaf enc)); [cbn [bind]|reflexivity|reflexivity|].
  - destruct t; reflexivity.
  - intros s Hs. split; [|discriminate]. apply subscription_round. now apply N.
Qed.

Lemma message_parts m :
  (forall l, g_operator leaf m = Some l -> l <> [] /\ Forall fits l) ->
  (forall s, t_sub leaf (g_metadata leaf m) = Some s -> f_subtree (s_filter leaf s) <> Some JNull) ->
  read_message leaf dec (write_message leaf enc m) =
  Some (match g_payload leaf m with Some JNull => without_payload m | _ => m end).
Proof.
  intros O S. unfold read_message, write_message. cbn [dec_obj bind].

  match goal with |- context [get ?k [(?k, ?x)]] => change (get k [(k, x)]) with (Some x) end.
  cbn [dec_obj bind].
  erewrite (opt_w (write_manifest leaf enc)); [cbn [bind]|reflexivity|reflexivity|
    intros a _; split; [apply manifest_round|discriminate]].
  erewrite (req_w (write_metadata leaf enc)); [cbn [bind]|reflexivity|reflexivity|now apply metadata_round].
  erewrite (opt_w (write_manifest leaf enc)); [cbn [bind]|reflexivity|reflexivity|
    intros a _; split; [apply manifest_round|discriminate]].
  erewrite (opt_w write_operator); [cbn [bind]|reflexivity|reflexivity|].
  2:{ intros a Ha. apply O in Ha. split; [now apply operator_round|discriminate]. }
  destruct m as [a b c d [[]|]]; cbn [g_payload];
    unfold opt; rewrite get_obj by reflexivity; reflexivity.
Qed.

Lemma message_round m : telling m ->
  read_message leaf dec (write_message leaf enc m) = Some m.
Proof.
  intros (P & O & S). rewrite message_parts by auto.
  destruct (g_payload leaf m) as [[]|]; congruence || reflexivity.
Qed.

Lemma message_no_labels m : g_operator leaf m = Some [] ->
  read_message leaf dec (write_message leaf enc m) = None.
Proof.
  intro H. unfold read_message, write_message. cbn [dec_obj bind].
  match goal with |- context [get ?k [(?k, ?x)]] => change (get k [(k, x)]) with (Some x) end.
  cbn [dec_obj bind].
  erewrite (opt_w (write_manifest leaf enc)); [cbn [bind]|reflexivity|reflexivity|
    intros a _; split; [apply manifest_round|discriminate]].
  destruct (req _ _ _) as [b|]; [|reflexivity]. cbn [bind].
  erewrite (opt_w (write_manifest leaf enc)); [cbn [bind]|reflexivity|reflexivity|
    intros a _; split; [apply manifest_round|discriminate]].
  rewrite H. unfold opt at 1. rewrite get_obj by reflexivity. reflexivity.
Qed.

End L.
