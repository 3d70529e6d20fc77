(* Properties C137-C141: the NETCONF client session. *)
From Verif Require Import Base MapLib NcModel NcProofs NsModel NsSpec NsProofs.

(* C137. Whatever the calls, the failures of the transport and the messages of
   the peer: if every reply names the request it answers and its answer is
   right, then every call that returns a value returns the device's value for
   what was asked. Replies may be lost, repeated, late or out of order. *)
Theorem C137_own_answers : forall send_ok filters_of sub_of ans input calls s outs,
  run send_ok filters_of sub_of (opened input) calls = (s, outs) ->
  named input -> honest ans input (s_sent s) -> Forall2 (right filters_of sub_of ans) calls outs.
Proof.
  intros send_ok filters_of sub_of ans input calls s outs H N O.
  destruct (run_ext send_ok filters_of sub_of ans calls (opened input) s outs eq_refl eq_refl H) as [_ Q]. exact (Q N O).
Qed.
Print Assumptions C137_own_answers.
(* With a peer that answers every request in turn, and sends nothing else, the
   calls also succeed. *)
Theorem C137_in_step : forall send_ok filters_of sub_of ans calls ops,
  (forall n, send_ok n = true) -> Forall2 (fun k o => asks k = Some o) calls ops ->
  10110 + N.of_nat (length calls) < 2 ^ 32 ->
  Forall2 (fun k g => usable filters_of ans k -> ~ failed g) calls
    (snd (run send_ok filters_of sub_of (opened (in_order dec ans 10110 ops)) calls)).
Proof.
  intros send_ok filters_of sub_of ans calls ops SO A B. apply (run_in_step send_ok filters_of sub_of SO ans calls ops); [exact A| |exact B|reflexivity].
  repeat split.
Qed.
Print Assumptions C137_in_step.
(* But a session does not recover from one message more than it asked for: the
   first call takes that message for its reply, and every later call takes the
   reply to the call before. The peer below answers every request correctly, in
   order and by its id; all the calls fail, however many there are. *)
Theorem C137_desync_refuted : forall send_ok filters_of sub_of ans calls ops session caps,
  (forall n, send_ok n = true) -> Forall (fun k => asks k <> None) calls ->
  10110 + N.of_nat (length calls) < 2 ^ 32 ->
  Forall failed (snd (run send_ok filters_of sub_of (opened (IHello session caps :: in_order dec ans 10110 ops)) calls)).
Proof.
  intros send_ok filters_of sub_of ans calls ops session caps SO A B. destruct calls as [|k r]; [constructor|].
  inversion A as [|? ? K A']; subst. destruct (asks k) as [o|] eqn:KO; [|congruence]. cbn [run].
  destruct (step_none _ filters_of sub_of SO (opened (IHello session caps :: in_order dec ans 10110 ops)) k o eq_refl eq_refl KO (or_intror I))
    as [s' [g [S [G [N1 [L1 [F1 [I1 E1]]]]]]]]. rewrite S.
  pose proof (run_behind send_ok filters_of sub_of SO ans r ops 10110 s' A') as Q.
  destruct (run send_ok filters_of sub_of s' r) as [s2 gs]. constructor; [exact G|]. cbn [snd] in Q. cbn [length] in B. cbn in N1.
  apply Q; [repeat split; assumption|exact N1|rewrite N1; lia|exact I1].
Qed.
Print Assumptions C137_desync_refuted.

(* C138. No two requests of a session have the same id, the closing one
   included, while there are fewer than about 2^31 calls. *)
Theorem C138_ids_distinct : forall send_ok filters_of sub_of input calls s outs s' e,
  10110 + 2 * N.of_nat (length calls) < 2 ^ 32 -> run send_ok filters_of sub_of (opened input) calls = (s, outs) ->
  close send_ok s = (s', e) -> NoDup (map fst (s_sent s)) /\ NoDup (map fst (s_sent s')).
Proof.
  intros send_ok filters_of sub_of input calls s outs s' e B H C.
  assert (F : fresh (opened input)) by (split; [constructor|intros i []]).
  destruct (run_fresh send_ok filters_of sub_of calls _ _ _ F B H) as [F1 _]. split; [exact (proj1 F1)|exact (close_fresh _ _ _ _ F1 C)].
Qed.
Print Assumptions C138_ids_distinct.
(* After 2^32 requests the ids repeat. *)
Theorem C138_ids_wrap_refuted : forall send_ok filters_of sub_of input o n k,
  (forall n, send_ok n = true) -> (k + N.to_nat (2 ^ 32) < n)%nat ->
  let sent := s_sent (fst (run send_ok filters_of sub_of (opened input) (repeat (KRpc o) n))) in
  exists i, nth_error sent k = Some (i, o) /\ nth_error sent (k + N.to_nat (2 ^ 32)) = Some (i, o).
Proof.
  intros send_ok filters_of sub_of input o n k SO L sent. unfold sent.
  assert (B : s_next (opened input) < 2 ^ 32) by (cbn; lia).
  destruct (run_rpcs send_ok filters_of sub_of SO o n (opened input) B) as [_ [m [E [_ M]]]]. rewrite E. cbn [opened s_sent app].
  exists (dec ((10110 + N.of_nat k) mod 2 ^ 32)). rewrite !M by lia. split; [reflexivity|]. do 3 f_equal.
  cbn [opened s_next]. rewrite Nat2N.inj_add, N2Nat.id, N.add_assoc.
  replace (10110 + N.of_nat k + 2 ^ 32) with (10110 + N.of_nat k + 1 * 2 ^ 32) by lia. apply N.mod_add. lia.
Qed.
Print Assumptions C138_ids_wrap_refuted.
(* A reply without an id is accepted as the answer to whatever was asked last:
   after one unexpected message a request for one schema returns the text of
   the schema asked for before. *)
Theorem C138_wrong_answer_refuted : forall send_ok filters_of sub_of ans a va b vb ta session caps,
  (forall n, send_ok n = true) -> data_of ans (OSchema a va) (RSchema ta) ->
  snd (run send_ok filters_of sub_of
    (opened [IHello session caps; IReply (Reply None (ans (OSchema a va))); IReply (Reply None (ans (OSchema b vb)))])
    [KSchema a va; KSchema b vb]) = [GFail EUnexpected; GSchema ta].
Proof.
  intros send_ok filters_of sub_of ans a va b vb ta session caps SO [e E]. cbn [run]. unfold step, get_schema.
  rewrite (request_now _ SO). cbn [opened s_next s_lib s_filters s_in s_errored s_sent rpc_reply with_in fst snd got].
  rewrite (request_now _ SO). cbn [opened s_next s_lib s_filters s_in s_errored s_sent rpc_reply with_in fst snd got valid_id rp_id rp_content].
  rewrite E. reflexivity.
Qed.
Print Assumptions C138_wrong_answer_refuted.
(* Closing succeeds on any "ok", also one that names another request. *)
Theorem C138_close_refuted : forall send_ok s id rest, (forall n, send_ok n = true) -> s_errored s = false ->
  s_in s = IReply (Reply id COk) :: rest -> snd (close send_ok s) = None.
Proof. intros send_ok s id rest SO E I. unfold close, send. rewrite SO. unfold rpc_reply. cbn. rewrite E, I. reflexivity. Qed.
Print Assumptions C138_close_refuted.
(* A reply that carries errors besides a response is a success. *)
Theorem C138_errors_refuted : forall send_ok filters_of sub_of errors n v t, (forall n, send_ok n = true) ->
  snd (run send_ok filters_of sub_of (opened [IReply (Reply (Some (dec 10110)) (CData errors (RSchema t)))]) [KSchema n v]) = [GSchema t].
Proof.
  intros send_ok filters_of sub_of errors n v t SO. cbn [run]. unfold step, get_schema. rewrite (request_now _ SO).
  cbn [opened s_next s_lib s_filters s_in s_errored s_sent rpc_reply with_in]. unfold valid_id. cbn [rp_id].
  destruct (bytes_eqb_spec (dec 10110) (dec 10110)) as [_|X]; [reflexivity|congruence].
Qed.
Print Assumptions C138_errors_refuted.

(* C139. The session keeps the YANG library and the filters it has read, so
   that they are asked for once. Nothing is ever kept: the device is asked for
   the library as often as the user asks the session. *)
Theorem C139_library_cached_refuted : forall send_ok filters_of sub_of input calls, (forall n, send_ok n = true) -> Forall plain calls ->
  let sent := s_sent (fst (run send_ok filters_of sub_of (opened input) calls)) in
  count is_library (map snd sent) = count asks_library calls /\ (count asks_filters calls <= count is_filters (map snd sent))%nat.
Proof.
  intros send_ok filters_of sub_of input calls SO P sent. unfold sent.
  destruct (run send_ok filters_of sub_of (opened input) calls) as [s gs] eqn:R.
  destruct (run_counts _ _ _ SO calls (opened input) s gs P eq_refl eq_refl R) as [m [A B]]. cbn [fst]. rewrite A. exact B.
Qed.
Print Assumptions C139_library_cached_refuted.

(* C140. A subscription that selects by the name of a filter comes back with
   the filter itself, when the device has it. *)
Theorem C140_resolved : forall send_ok filters_of sub_of ans input calls s outs k id x d y n f v,
  run send_ok filters_of sub_of (opened input) calls = (s, outs) -> named input -> honest ans input (s_sent s) ->
  nth_error calls k = Some (KSub id) -> nth_error outs k = Some (GSub x) ->
  data_of ans (OSub id) (RData d) -> sub_of d = Some (y, true) -> su_sel y = SRef n ->
  device_filters filters_of ans f -> mget N.eqb n f = Some v -> x = Subn (SValue v) (su_rest y).
Proof.
  intros send_ok filters_of sub_of ans input calls s outs k id x d y n f v H N O KC KG [e D] S Y [d' [[e' D'] F]] M.
  pose proof (C137_own_answers _ _ _ ans _ _ _ _ H N O) as Q. clear H O.
  revert k KC KG. induction Q as [|a b r t A Q IH]; intros [|k] KC KG; try discriminate KC; cbn in KC, KG.
  - injection KC as ->. injection KG as ->. cbn in A. destruct A as [d2 [y2 [[e2 D2] [S2 [R2 X]]]]].
    assert (d2 = d) by congruence. subst d2. assert (y2 = y) by congruence. subst y2. rewrite Y in X.
    destruct X as [f2 [[d3 [[e3 D3] F3]] [X _]]]. assert (d3 = d') by congruence. subst d3. assert (f2 = f) by congruence. subst f2.
    specialize (X v M). destruct x as [sx rx]. cbn in *. congruence.
  - exact (IH k KC KG).
Qed.
Print Assumptions C140_resolved.
(* When the device does not have it, the subscription is returned as if all
   were well, still with the name. *)
Theorem C140_unresolved_refuted : forall send_ok filters_of sub_of id d df y n f, (forall n, send_ok n = true) ->
  sub_of d = Some (y, true) -> su_sel y = SRef n -> filters_of df = Some f -> mget N.eqb n f = None ->
  snd (run send_ok filters_of sub_of (opened [IReply (Reply (Some (dec 10110)) (CData [] (RData d))); IReply (Reply (Some (dec 10111)) (CData [] (RData df)))])
        [KSub id]) = [GSub y].
Proof.
  intros send_ok filters_of sub_of id d df y n f SO S Y F M. cbn [run]. unfold step, get_sub. rewrite (request_now _ SO).
  cbn [opened s_next s_lib s_filters s_in s_errored s_sent rpc_reply with_in]. unfold valid_id at 1. cbn [rp_id].
  destruct (bytes_eqb_spec (dec 10110) (dec 10110)) as [_|X]; [|congruence]. cbn [rp_content responses]. rewrite S, Y.
  unfold get_filters. cbn [s_filters]. rewrite (request_now _ SO).
  cbn [opened s_next s_lib s_filters s_in s_errored s_sent rpc_reply with_in]. change ((10110 + 1) mod 2 ^ 32) with 10111. unfold valid_id. cbn [rp_id].
  destruct (bytes_eqb_spec (dec 10111) (dec 10111)) as [_|X]; [|congruence]. cbn [rp_content responses]. rewrite F. cbn. rewrite M. reflexivity.
Qed.
Print Assumptions C140_unresolved_refuted.

(* C141. A session is opened exactly when the client offers the chunked framing
   and not the old one, the hello goes out and the peer's first message is a
   hello with a session id; a configuration that cannot work sends nothing. *)
Theorem C141_connect : forall caps sent_ok input,
  ((exists s, snd (connect caps sent_ok input) = inl s) <->
    In base11 caps /\ ~ In base10 caps /\ sent_ok = true /\ exists n c rest, input = IHello (Some n) c :: rest) /\
  (forall s, snd (connect caps sent_ok input) = inl s -> exists m, input = m :: s_in s /\ s = opened (s_in s)) /\
  (~ In base11 caps \/ In base10 caps -> fst (connect caps sent_ok input) = []).
Proof.
  intros caps sent_ok input.
  assert (M : forall x, existsb (N.eqb x) caps = true <-> In x caps).
  { intros x. rewrite existsb_exists. split; [intros [y [I E]]; apply N.eqb_eq in E; subst; exact I|intros I; exists x; split; [exact I|apply N.eqb_refl]]. }
  pose proof (M base11) as M1. pose proof (M base10) as M0. clear M. unfold connect.
  destruct (existsb (N.eqb base11) caps); cbn [negb].
  - assert (I1 : In base11 caps) by (apply M1; reflexivity). destruct (existsb (N.eqb base10) caps).
    + assert (I0 : In base10 caps) by (apply M0; reflexivity). cbn. split; [|split; [discriminate|reflexivity]].
      split; [intros [s H]; discriminate H|intros [_ [H _]]; destruct (H I0)].
    + assert (I0 : ~ In base10 caps) by (intros I; apply M0 in I; discriminate I). destruct sent_ok; cbn [negb].
      * destruct input as [|[r|[n|] c| |] l]; cbn [fst snd].
        1,2,4,5,6: split; [|split; [discriminate|intros [H|H]; [destruct (H I1)|destruct (I0 H)]]];
          split; [intros [s H]; discriminate H|intros [_ [_ [_ [n' [c' [l' H]]]]]]; discriminate H].
        split; [|split; [|intros [H|H]; [destruct (H I1)|destruct (I0 H)]]].
        -- split; [intros _|intros _; eexists; reflexivity]. repeat split; try assumption. exists n, c, l. reflexivity.
        -- intros s H. injection H as <-. exists (IHello (Some n) c). split; reflexivity.
      * cbn. split; [|split; [discriminate|reflexivity]]. split; [intros [s H]; discriminate H|intros [_ [_ [H _]]]; discriminate H].
  - assert (I1 : ~ In base11 caps) by (intros I; apply M1 in I; discriminate I). cbn. split; [|split; [discriminate|reflexivity]].
    split; [intros [s H]; discriminate H|intros [H _]; destruct (I1 H)].
Qed.
Print Assumptions C141_connect.

(* ---- cases that meet the hypotheses ---- *)
Definition all_ok : nat -> bool := fun _ => true.
Definition ex_filters : octets -> option filters := fun d => match d with [1] => Some [(7, 70)] | _ => None end.
Definition ex_sub : octets -> option (subscription * bool) := fun d => match d with [2] => Some (Subn (SRef 7) 5, true) | [3] => Some (Subn (SRef 8) 5, true) | _ => None end.
Definition ex_ans : op -> content := fun o => match o with
  | OSchema [97] _ => CData [] (RSchema [65]) | OSchema _ _ => CData [] (RSchema [66]) | OLibrary => CData [] (RLibrary 4)
  | OFilters => CData [] (RData [1]) | OSub 1 => CData [] (RData [2]) | OSub _ => CData [] (RData [3]) | _ => COk end.
Definition ex_ops : list op := [OSchema [97] None; OLibrary; OSub 1; OFilters; OSchema [98] None].
Definition ex_calls : list call := [KSchema [97] None; KLibrary; KSub 1; KSchema [98] None].
Example C137_nonvacuous :
  let input := in_order dec ex_ans 10110 ex_ops in
  let r := run all_ok ex_filters ex_sub (opened input) ex_calls in
  snd r = [GSchema [65]; GLibrary 4; GSub (Subn (SValue 70) 5); GSchema [66]] /\
  s_sent (fst r) = [(dec 10110, OSchema [97] None); (dec 10111, OLibrary); (dec 10112, OSub 1); (dec 10113, OFilters); (dec 10114, OSchema [98] None)] /\
  named input /\ honest ex_ans input (s_sent (fst r)) /\
  (* a repeated reply: the next call fails instead of taking it *)
  snd (run all_ok ex_filters ex_sub (opened (hd IBad input :: input)) [KSchema [97] None; KSchema [98] None]) = [GSchema [65]; GFail EUnexpected] /\
  Forall2 (fun k o => asks k = Some o) [KSchema [97] None; KLibrary] [OSchema [97] None; OLibrary] /\
  usable ex_filters ex_ans KFilters.
Proof.
  cbv zeta. split; [reflexivity|]. split; [reflexivity|]. split.
  { intros r I. cbn in I. repeat (destruct I as [I|I]; [injection I as <-; discriminate|]). destruct I. }
  split.
  { intros r i o I E S. lazy in I, S. destruct I as [I|[I|[I|[I|[I|[]]]]]]; injection I as <-; lazy in E; injection E as <-;
      destruct S as [S|[S|[S|[S|[S|[]]]]]]; try discriminate S; injection S as <-; reflexivity. }
  split; [reflexivity|]. split; [repeat constructor|]. exists [(7, 70)], [1]. split; [exists []; reflexivity|reflexivity].
Qed.
Example C138_nonvacuous :
  10110 + 2 * N.of_nat (length ex_calls) < 2 ^ 32 /\
  snd (close all_ok (fst (run all_ok ex_filters ex_sub (opened (in_order dec ex_ans 10110 (ex_ops ++ [OCloseSession]))) ex_calls))) = None /\
  (exists n, (0 + N.to_nat (2 ^ 32) < n)%nat) /\ data_of ex_ans (OSchema [97] None) (RSchema [65]).
Proof.
  split; [reflexivity|]. split; [reflexivity|]. split; [exists (Datatypes.S (0 + N.to_nat (2 ^ 32))); apply Nat.lt_succ_diag_r|exists []; reflexivity].
Qed.
Example C139_nonvacuous :
  let r := run all_ok ex_filters ex_sub (opened (in_order dec ex_ans 10110 [OLibrary; OLibrary; OFilters; OFilters])) [KLibrary; KLibrary; KFilters; KFilters] in
  snd r = [GLibrary 4; GLibrary 4; GFilters [(7, 70)]; GFilters [(7, 70)]] /\ map snd (s_sent (fst r)) = [OLibrary; OLibrary; OFilters; OFilters].
Proof. split; reflexivity. Qed.
Example C140_nonvacuous :
  ex_sub [2] = Some (Subn (SRef 7) 5, true) /\ mget N.eqb 7 [(7, 70)] = Some 70 /\ ex_filters [1] = Some [(7, 70)] /\
  snd (run all_ok ex_filters ex_sub (opened (in_order dec ex_ans 10110 [OSub 9; OFilters])) [KSub 9]) = [GSub (Subn (SRef 8) 5)].
Proof. repeat split. Qed.
Example C141_nonvacuous :
  connect [base11; 3] true [IHello (Some 1) [base11]; IRpc] = ([[base11; 3]], inl (opened [IRpc])) /\
  connect [base11; base10] true [IHello (Some 1) [base11]] = ([], inr EBase10) /\
  connect [base11] true [IHello None []] = ([[base11]], inr ENoSession).
Proof. repeat split. Qed.
