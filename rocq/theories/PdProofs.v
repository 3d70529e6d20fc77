(* Proofs about the capture decoding tool, for any handler. *)
From Verif Require Import Base BaseLemmas MapLib FramingModel FramingProofs PcapModel PcapSpec PcapProofs PdModel PdSpec.

Lemma key_eqb_spec (a b : key) : reflect (a = b) (key_eqb a b).
Proof.
  destruct a as [[[a1 a2] a3] a4], b as [[[b1 b2] b3] b4]. unfold key_eqb.
  destruct (N.eqb_spec a1 b1), (N.eqb_spec a2 b2), (N.eqb_spec a3 b3), (N.eqb_spec a4 b4); cbn; constructor; congruence.
Qed.
Lemma transport_eqb_spec (a b : transport) : reflect (a = b) (transport_eqb a b).
Proof. destruct a, b; cbn; constructor; congruence. Qed.

Section Any.
Context {C M E L : Type} (h : handler C M E L).
Local Notation handle := (handle h).
Local Notation handle_all := (handle_all h).
Local Notation peers := (@peers C).

Definition accepts (p : pkt) : bool :=
  transport_eqb (p_proto p) (h_proto h) && existsb (N.eqb (dst_port (p_key p))) (h_ports h).
Lemma accepts_wanted p : accepts p = true <-> wanted h p.
Proof.
  unfold accepts, wanted. rewrite andb_true_iff, existsb_exists. destruct (transport_eqb_spec (p_proto p) (h_proto h)) as [E0|E0].
  - split; [intros [_ (x & Hx & H)]; apply N.eqb_eq in H; subst; auto|]. intros [_ H]. split; [reflexivity|]. exists (dst_port (p_key p)).
    split; [exact H|apply N.eqb_refl].
  - split; [intros [H _]; discriminate H|tauto].
Qed.
Lemma is_wanted_accepts p : is_wanted h p = accepts p.
Proof.
  unfold is_wanted. destruct (wanted_dec h p) as [W|W]; [symmetry; apply accepts_wanted; exact W|].
  destruct (accepts p) eqn:A; [|reflexivity]. apply accepts_wanted in A. contradiction.
Qed.
Lemma decode_keys fuel : forall k s b s' b' os e k' m, decode_loop h fuel k s b = (s', b', os, e) -> In (Success k' m) os -> k' = k.
Proof.
  induction fuel as [|f IH]; intros k s b s' b' os e k' m; destruct b as [|x b]; cbn [decode_loop].
  1-3: intros H; inversion H; subst; intros [].
  destruct (h_decode h s (x :: b)) as [[s1 b1] [|i|er|]].
  - intros H; inversion H; subst; intros [].
  - destruct (decode_loop h f k s1 b1) as [[[s2 b2] os2] e2] eqn:Hd. intros H; inversion H; subst. intros [H0|H0]; [congruence|]. eapply IH; eauto.
  - destruct (decode_loop h f k s1 []) as [[[s2 b2] os2] e2] eqn:Hd. intros H; inversion H; subst. intros [H0|H0]; [congruence|]. eapply IH; eauto.
  - intros H; inversion H; subst; intros [].
Qed.
Lemma handle_wanted ps p ps' os e : handle ps p = (ps', Some os, e) -> accepts p = true /\ os <> [] /\ forall k m, In (Success k m) os -> k = p_key p.
Proof.
  unfold PdModel.handle. fold (accepts p). destruct (accepts p); [|discriminate]. destruct (match mget _ _ _ with Some cb => cb | None => _ end) as [s b].
  unfold decode_buffer. destruct (decode_loop h _ (p_key p) s _) as [[[s' b'] os'] e'] eqn:Hd. intros H. split; [reflexivity|].
  destruct os' as [|o os']; [discriminate|]. inversion H; subst. split; [discriminate|]. intros k m Hi. eapply decode_keys; eauto.
Qed.
Lemma handle_unwanted ps p : accepts p = false -> handle ps p = (ps, None, Returned).
Proof. unfold PdModel.handle. fold (accepts p). intros ->. reflexivity. Qed.
Lemma all_wanted l : forall ps p os, In (p, Some os) (fst (handle_all ps l)) ->
  wanted h p /\ os <> [] /\ forall k m, In (Success k m) os -> k = p_key p.
Proof.
  induction l as [|q l IH]; intros ps p os; cbn [PdModel.handle_all fst In]; [intros []|].
  destruct (handle ps q) as [[ps' r] [| |]] eqn:Hh; cbn [fst In]; try tauto.
  specialize (IH ps' p os). destruct (handle_all ps' l) as [rs e] eqn:Ha. cbn [fst In] in *. intros [H|H]; [|auto].
  inversion H; subst. destruct (handle_wanted _ _ _ _ _ Hh) as (H1 & H2 & H3). split; [apply accepts_wanted, H1|]. auto.
Qed.
Lemma all_filter l : forall ps,
  handle_all ps (filter (is_wanted h) l) = (filter (fun x => is_wanted h (fst x)) (fst (handle_all ps l)), snd (handle_all ps l)).
Proof.
  induction l as [|q l IH]; intros ps; cbn [filter PdModel.handle_all fst snd]; [reflexivity|]. rewrite is_wanted_accepts.
  destruct (accepts q) eqn:A; cbn [PdModel.handle_all].
  - destruct (handle ps q) as [[ps' r] [| |]] eqn:Hh; cbn [fst snd filter]; try reflexivity. rewrite IH.
    destruct (handle_all ps' l) as [rs e]. cbn [fst snd filter]. rewrite is_wanted_accepts, A. reflexivity.
  - rewrite (handle_unwanted ps q A), IH. destruct (handle_all ps l) as [rs e]. cbn [fst snd filter]. rewrite is_wanted_accepts, A. reflexivity.
Qed.

(* one flow sees only its own state *)
Lemma handle_same ps1 ps2 p : mget key_eqb (p_key p) ps1 = mget key_eqb (p_key p) ps2 ->
  match handle ps1 p, handle ps2 p with
  | (q1, r1, e1), (q2, r2, e2) => r1 = r2 /\ e1 = e2 /\ mget key_eqb (p_key p) q1 = mget key_eqb (p_key p) q2
  end.
Proof.
  intros H. unfold PdModel.handle. destruct (transport_eqb _ _ && _); [|auto]. rewrite H.
  destruct (match mget key_eqb (p_key p) ps2 with Some cb => cb | None => _ end) as [s b].
  destruct (decode_buffer h (p_key p) s (b ++ p_data p)) as [[[s' b'] os] e]. rewrite !mget_mset_eq by apply key_eqb_spec. auto.
Qed.
Lemma handle_other ps p k : p_key p <> k -> mget key_eqb k (fst (fst (handle ps p))) = mget key_eqb k ps.
Proof.
  intros H. unfold PdModel.handle. destruct (transport_eqb _ _ && _); [|reflexivity].
  destruct (match mget key_eqb (p_key p) ps with Some cb => cb | None => _ end) as [s b].
  destruct (decode_buffer h (p_key p) s (b ++ p_data p)) as [[[s' b'] os] e]. cbn [fst]. apply mget_mset_neq; [apply key_eqb_spec|congruence].
Qed.
Lemma all_flow k l : forall ps1 ps2, mget key_eqb k ps1 = mget key_eqb k ps2 -> snd (handle_all ps1 l) = Returned ->
  handle_all ps2 (filter (of_flow k) l) = (filter (fun x => of_flow k (fst x)) (fst (handle_all ps1 l)), Returned).
Proof.
  induction l as [|q l IH]; intros ps1 ps2 He; cbn [filter PdModel.handle_all fst snd]; [reflexivity|].
  unfold of_flow at 1. destruct (key_eq_dec (p_key q) k) as [Ek|Ek].
  - subst k. pose proof (handle_same ps1 ps2 q He) as Hs. cbn [PdModel.handle_all].
    destruct (handle ps1 q) as [[q1 r1] e1], (handle ps2 q) as [[q2 r2] e2]. destruct Hs as (-> & -> & Hs).
    destruct e2; try discriminate. specialize (IH q1 q2 Hs). destruct (handle_all q1 l) as [rs e]. cbn [fst snd filter] in *.
    intros H. rewrite (IH H). unfold of_flow at 2. destruct (key_eq_dec (p_key q) (p_key q)); congruence.
  - pose proof (handle_other ps1 q k Ek) as Ho. destruct (handle ps1 q) as [[q1 r1] e1]. cbn [fst] in Ho.
    destruct e1; try discriminate. rewrite <- Ho in He. specialize (IH q1 ps2 He). destruct (handle_all q1 l) as [rs e]. cbn [fst snd filter] in *.
    intros H. rewrite (IH H). unfold of_flow at 2. destruct (key_eq_dec (p_key q) k); congruence.
Qed.

(* a stream of one flow *)
Fixpoint stream (k : key) (s : C) (b : list N) (xs : list (list N)) : list (list (outcome M E)) * ending :=
  match xs with
  | [] => ([], Returned)
  | x :: xs' =>
      match decode_buffer h k s (b ++ x) with
      | (s', b', os, Returned) => match stream k s' b' xs' with (r, e) => (os :: r, e) end
      | (_, _, _, e) => ([], e)
      end
  end.
Definition wrap (os : list (outcome M E)) : option (list (outcome M E)) := match os with [] => None | _ => Some os end.
Lemma outcomes_wrap (ps : list pkt) rs : length ps = length rs -> outcomes (combine ps (map wrap rs)) = concat rs.
Proof.
  revert rs. induction ps as [|p ps IH]; intros [|r rs]; cbn [length]; try discriminate; [reflexivity|]. intros H. injection H as H.
  specialize (IH rs H). unfold outcomes in *. cbn [map combine flat_map snd concat]. rewrite IH. destruct r; reflexivity.
Qed.
Lemma stream_length k xs : forall s b, (length (fst (stream k s b xs)) <= length xs)%nat.
Proof.
  induction xs as [|x xs IH]; intros s b; cbn [stream fst length]; [lia|]. destruct (decode_buffer h k s (b ++ x)) as [[[s' b'] os] [| |]]; cbn [fst length]; try lia.
  specialize (IH s' b'). destruct (stream k s' b' xs) as [r e]. cbn [fst length] in *. lia.
Qed.
Lemma handle_stream k xs : wanted h (mkP k (h_proto h) []) -> forall ps s b,
  match mget key_eqb k ps with Some cb => cb | None => (h_init h, []) end = (s, b) ->
  handle_all ps (flow_of (h_proto h) k xs) =
    (combine (flow_of (h_proto h) k xs) (map wrap (fst (stream k s b xs))), snd (stream k s b xs)).
Proof.
  intros Hw. assert (Ha : forall d, accepts (mkP k (h_proto h) d) = true) by (intros d; apply accepts_wanted; exact Hw).
  induction xs as [|x xs IH]; intros ps s b He; [reflexivity|]. cbn [flow_of map PdModel.handle_all stream].
  unfold PdModel.handle. fold (accepts (mkP k (h_proto h) x)). rewrite Ha. cbn [p_key p_data]. rewrite He.
  destruct (decode_buffer h k s (b ++ x)) as [[[s' b'] os] [| |]]; try reflexivity.
  specialize (IH (mset key_eqb k (s', b') ps) s' b'). rewrite mget_mset_eq in IH by apply key_eqb_spec. specialize (IH eq_refl).
  change (map (mkP k (h_proto h)) xs) with (flow_of (h_proto h) k xs). rewrite IH. destruct (stream k s' b' xs) as [r e]. reflexivity.
Qed.
Lemma outcomes_combine (ps : list pkt) rs : (length rs <= length ps)%nat -> outcomes (combine ps (map wrap rs)) = concat rs.
Proof.
  revert rs. induction ps as [|p ps IH]; intros [|r rs]; cbn [length]; try lia; [reflexivity|reflexivity|]. intros H.
  assert (H' : (length rs <= length ps)%nat) by lia. specialize (IH rs H'). unfold outcomes in *. cbn [map combine flat_map snd concat].
  rewrite IH. destruct r; reflexivity.
Qed.
Lemma stream_outcomes k xs : wanted h (mkP k (h_proto h) []) ->
  outcomes (fst (handle_all [] (flow_of (h_proto h) k xs))) = concat (fst (stream k (h_init h) [] xs)) /\
  snd (handle_all [] (flow_of (h_proto h) k xs)) = snd (stream k (h_init h) [] xs).
Proof.
  intros Hw. rewrite (handle_stream k xs Hw [] (h_init h) [] eq_refl). cbn [fst snd]. split; [|reflexivity]. apply outcomes_combine.
  unfold flow_of. rewrite map_length. apply stream_length.
Qed.
Lemma unwanted_outcomes k t xs : ~ wanted h (mkP k t []) -> outcomes (fst (handle_all [] (flow_of t k xs))) = [].
Proof.
  intros Hw. generalize (@nil (key * (C * list N))). induction xs as [|x xs IH]; intros ps; [reflexivity|]. cbn [flow_of map PdModel.handle_all].
  rewrite handle_unwanted. 2:{ destruct (accepts (mkP k t x)) eqn:A; [|reflexivity]. apply accepts_wanted in A. contradiction. }
  specialize (IH ps). fold (flow_of t k xs). destruct (handle_all ps (flow_of t k xs)) as [rs e]. exact IH.
Qed.
Lemma until_error_app (a b : list (outcome M E)) : (forall e, ~ In (Failure e) a) -> until_error (a ++ b) = a ++ until_error b.
Proof.
  induction a as [|o a IH]; intros H; [reflexivity|]. destruct o as [k m|e]; [|exfalso; apply (H e); left; reflexivity].
  cbn [app until_error]. rewrite IH; [reflexivity|]. intros e He. apply (H e). right. exact He.
Qed.
Lemma until_error_stop (a b : list (outcome M E)) e : until_error (a ++ Failure e :: b) = until_error (a ++ [Failure e]).
Proof. induction a as [|[k m|e'] a IH]; cbn [app until_error]; [reflexivity|now rewrite IH|reflexivity]. Qed.

Section Stream.
Context (Inv : C -> list N -> Prop).
Local Notation D := (h_decode h).
Hypothesis inv_app : forall s b x, Inv s b -> Inv s (b ++ x).
Hypothesis inv_step : forall s b s' b' o, Inv s b -> D s b = (s', b', o) -> halts o = false -> Inv s' b'.
Hypothesis none_stable : forall s b s' b' , Inv s b -> D s b = (s', b', DNone) ->
  b' = b /\ forall x, D s' (b ++ x) = D s (b ++ x).
Hypothesis some_stable : forall s b s' b' o, Inv s b -> D s b = (s', b', o) -> is_none o = false ->
  forall x, D s (b ++ x) = (s', b' ++ x, o).
Hypothesis progress : forall s b s' b' o, Inv s b -> D s b = (s', b', o) ->
  is_none o = false -> halts o = false -> (length b' < length b)%nat.
Hypothesis quiet : forall s, Inv s [] -> D s [] = (s, [], DNone).

Lemma loop_drain f1 : forall f2 k s b, Inv s b -> (length b <= f1)%nat -> (length b < f2)%nat ->
  match drain_fuel D f2 s b with
  | (s', b', os, Waiting) => decode_loop h f1 k s b = (s', b', as_outcomes k os, Returned) /\ Forall (fun o => exists m, o = DItem m) os
  | (s', b', os, Halted) =>
      exists os0, Forall (fun o => exists m, o = DItem m) os0 /\
      ((exists e, os = os0 ++ [DErr e] /\ decode_loop h f1 k s b = (s', [], as_outcomes k os, Returned)) \/
       (os = os0 ++ [DPanic] /\ decode_loop h f1 k s b = (s', b', as_outcomes k os, Crashed)))
  | (_, _, _, Looping) => False
  end.
Proof.
  induction f1 as [|f1 IH]; intros [|f2] k s b Hi H1 H2; try lia.
  - destruct b; [|cbn in H1; lia]. cbn [drain_fuel decode_loop]. rewrite (quiet s Hi). cbn. auto.
  - cbn [drain_fuel decode_loop]. destruct b as [|x b].
    { rewrite (quiet s Hi). cbn. auto. }
    destruct (D s (x :: b)) as [[s' b'] o] eqn:Ed. destruct o as [|m|e|]; cbn [is_none halts].
    + split; [reflexivity|constructor].
    + pose proof (progress _ _ _ _ _ Hi Ed eq_refl eq_refl) as Hp. assert (Hi' : Inv s' b') by (eapply inv_step; eauto).
      specialize (IH f2 k s' b' Hi' ltac:(lia) ltac:(lia)). destruct (drain_fuel D f2 s' b') as [[[s2 b2] os] [| |]].
      * destruct IH as [-> IH]. split; [reflexivity|]. constructor; [eauto|exact IH].
      * destruct IH as (os0 & Hf & [(e & -> & ->)|(-> & ->)]).
        -- exists (DItem m :: os0). split; [constructor; eauto|]. left. exists e. split; reflexivity.
        -- exists (DItem m :: os0). split; [constructor; eauto|]. right. split; reflexivity.
      * exact IH.
    + exists []. split; [constructor|]. left. exists e. split; [reflexivity|]. destruct f1; reflexivity.
    + exists []. split; [constructor|]. right. split; reflexivity.
Qed.
Lemma items_no_failure k os : Forall (fun o : dout M E => exists m, o = DItem m) os -> forall e, ~ In (Failure e) (as_outcomes k os).
Proof.
  intros H e Hi. unfold as_outcomes in Hi. apply in_flat_map in Hi as (o & Ho & Hi). rewrite Forall_forall in H. destruct (H o Ho) as [m ->].
  destruct Hi as [Hi|[]]. discriminate.
Qed.
Lemma as_outcomes_app k (a b : list (dout M E)) : as_outcomes k (a ++ b) = as_outcomes k a ++ as_outcomes k b.
Proof. apply flat_map_app. Qed.
Lemma until_items k os (r : list (outcome M E)) : Forall (fun o : dout M E => exists m, o = DItem m) os -> until_error (as_outcomes k os ++ r) = as_outcomes k os ++ until_error r.
Proof. intros H. apply until_error_app. apply items_no_failure, H. Qed.

(* up to the first error the tool prints what the decoder reading the stream answers *)
Lemma stream_feed k xs : forall s b o, Inv s b ->
  (~ In DPanic (c_out (feed_all D (mkConn s b [] Waiting) xs)) ->
   until_error (concat (fst (stream k s b xs))) = as_outcomes k (c_out (feed_all D (mkConn s b [] Waiting) xs))) /\
  c_out (feed_all D (mkConn s b o Waiting) xs) = o ++ c_out (feed_all D (mkConn s b [] Waiting) xs).
Proof.
  assert (Hh : forall xs s b o st, st <> Waiting -> c_out (feed_all D (mkConn s b o st) xs) = o).
  { induction xs0 as [|x xs0 IH]; intros s b o st Hs; [reflexivity|]. cbn [feed_all fold_left]. unfold feed at 2. cbn [c_status c_st c_buf c_out].
    destruct st; [congruence| |]; apply IH; discriminate. }
  induction xs as [|x xs IH]; intros s b o Hi.
  { cbn. split; [reflexivity|symmetry; apply app_nil_r]. }
  assert (Hf : forall o, feed_all D (mkConn s b o Waiting) (x :: xs) = match drain D s (b ++ x) with (s', b', os, st) => feed_all D (mkConn s' b' (o ++ os) st) xs end).
  { intros o'. cbn [feed_all fold_left]. unfold feed at 2. cbn [c_status c_st c_buf c_out]. destruct (drain D s (b ++ x)) as [[[s' b'] os] st]. reflexivity. }
  rewrite !Hf. clear Hf. cbn [stream]. unfold decode_buffer, drain.
  pose proof (loop_drain (length (b ++ x)) (S (length (b ++ x))) k s (b ++ x) (inv_app _ _ _ Hi) (le_n _) (Nat.lt_succ_diag_r _)) as HL.
  pose proof (drain_spec D Inv inv_app inv_step none_stable some_stable progress (length (b ++ x)) s (b ++ x) (le_n _) (inv_app _ _ _ Hi)) as HS.
  unfold drain in HS. destruct (drain_fuel D (S (length (b ++ x))) s (b ++ x)) as [[[s1 b1] os] st]. destruct HS as (s0 & b0 & os0 & st0 & HE & HS).
  injection HE as <- <- <- <-. destruct st; [|  |contradiction].
  - destruct HL as [-> HF]. destruct HS as [(_ & Hi1 & _)|(HX & _)]; [|discriminate]. specialize (IH s1 b1).
    destruct (IH os Hi1) as [IH1 IH2]. destruct (IH (o ++ os) Hi1) as [_ IH3]. destruct (stream k s1 b1 xs) as [r e]. cbn [fst concat] in *.
    cbn [app]. rewrite until_items by exact HF. split.
    + intros Hn. rewrite IH2 in Hn |- *. rewrite as_outcomes_app, IH1; [reflexivity|]. intros Hp. apply Hn, in_or_app. right. exact Hp.
    + rewrite IH3, IH2, app_assoc. reflexivity.
  - rewrite !Hh by discriminate. split; [|reflexivity].
    cbn [app]. destruct HL as (os0 & HF & [(e & -> & ->)|(-> & ->)]).
    + intros _. destruct (stream k s1 [] xs) as [r e']. cbn [fst concat app]. rewrite as_outcomes_app. cbn [as_outcomes flat_map app]. rewrite <- app_assoc. cbn [app].
      rewrite until_error_stop. rewrite until_items by exact HF. reflexivity.
    + intros Hn. exfalso. apply Hn, in_or_app. right. left. reflexivity.
Qed.
(* while nothing goes wrong every call returns *)
Lemma stream_returns k xs : forall s b, Inv s b -> c_status (feed_all D (mkConn s b [] Waiting) xs) = Waiting -> snd (stream k s b xs) = Returned.
Proof.
  assert (Hh : forall xs s b o st, st <> Waiting -> c_status (feed_all D (mkConn s b o st) xs) = st).
  { induction xs0 as [|x xs0 IH]; intros s b o st Hs; [reflexivity|]. cbn [feed_all fold_left]. unfold feed at 2. cbn [c_status c_st c_buf c_out].
    destruct st; [congruence| |]; apply IH; discriminate. }
  assert (Ho : forall xs s b o o' st, c_status (feed_all D (mkConn s b o st) xs) = c_status (feed_all D (mkConn s b o' st) xs)).
  { induction xs0 as [|x xs0 IH]; intros s b o o' st; [reflexivity|]. cbn [feed_all fold_left]. unfold feed at 2 4. cbn [c_status c_st c_buf c_out].
    destruct st; [|apply IH|apply IH]. destruct (drain D s (b ++ x)) as [[[s1 b1] os] st]. apply IH. }
  induction xs as [|x xs IH]; intros s b Hi Hs; [reflexivity|].
  cbn [stream]. cbn [feed_all fold_left] in Hs. unfold feed at 2 in Hs. cbn [c_status c_st c_buf c_out] in Hs. unfold decode_buffer. unfold drain in Hs.
  pose proof (loop_drain (length (b ++ x)) (S (length (b ++ x))) k s (b ++ x) (inv_app _ _ _ Hi) (le_n _) (Nat.lt_succ_diag_r _)) as HL.
  pose proof (drain_spec D Inv inv_app inv_step none_stable some_stable progress (length (b ++ x)) s (b ++ x) (le_n _) (inv_app _ _ _ Hi)) as HS.
  unfold drain in HS. destruct (drain_fuel D (S (length (b ++ x))) s (b ++ x)) as [[[s1 b1] os] st]. destruct HS as (s0 & b0 & os0 & st0 & HE & HS).
  injection HE as <- <- <- <-. fold (feed_all D (mkConn s1 b1 ([] ++ os) st) xs) in Hs. destruct st.
  - destruct HL as [-> HF]. destruct HS as [(_ & Hi1 & _)|(HX & _)]; [|discriminate]. rewrite (Ho xs s1 b1 ([] ++ os) []) in Hs. specialize (IH s1 b1 Hi1 Hs).
    destruct (stream k s1 b1 xs) as [r e]. exact IH.
  - rewrite Hh in Hs by discriminate. discriminate.
  - contradiction.
Qed.
End Stream.
End Any.
