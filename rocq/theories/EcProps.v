(* Properties C142-C145: BGP communities. *)
From Coq Require Import String.
From Verif Require Import Base BaseLemmas NcModel EcModel EcSpec EcProofs.
Local Notation length := List.length.

(* C142: an extended community other than a source AS is written as eight octets,
   beginning with the registered type and sub-type if it has a name, and read back
   from them whatever follows; an IPv6 one as twenty octets.  Missing: the two
   source AS communities, see below. *)
Theorem C142_round_trip_partial : forall c, ext_fits c -> ~ source_as c ->
  blen (write_ext c) = 8 /\
  (forall t s, registered c = Some (t, s) -> exists v, write_ext c = t :: s :: v) /\
  forall rest off, parse_ext (mkR (write_ext c ++ rest) off) = (mkR rest (off + 8), Ok c).
Proof.
  intros c F S. pose proof (write_ext_len c F) as L. split; [exact L|]. split.
  - intros t s R. destruct c as [[k g l|]|[k g l|]|[k g l|]| |[k g l|]| |[]| |[]| |]; try discriminate R; cbn in R; injection R as <- <-;
      cbn [write_ext write_admin write_opaque write_evpn];
      try (destruct k; first [eexists; reflexivity|destruct (S I)]); eexists; reflexivity.
  - intros rest off. rewrite (p_ext c F S rest off), L. reflexivity.
Qed.
Theorem C142_ipv6_round_trip : forall c, ext6_fits c ->
  blen (write_ext6 c) = 20 /\
  forall rest off, parse_ext6 (mkR (write_ext6 c ++ rest) off) = (mkR rest (off + 20), Ok c).
Proof.
  intros c F. pose proof (write_ext6_len c F) as L. split; [exact L|]. intros rest off. rewrite (p_ext6 c F rest off), L. reflexivity.
Qed.
(* C142: the same for whole attributes, of any number of communities. *)
Theorem C142_lists_partial :
  (forall l off, Forall (fun c => ext_fits c /\ ~ source_as c) l ->
     many_all parse_ext (mkR (flat_map write_ext l) off) = (mkR [] (off + 8 * blen l), Ok l)) /\
  (forall l off, Forall ext6_fits l ->
     many_all parse_ext6 (mkR (flat_map write_ext6 l) off) = (mkR [] (off + 20 * blen l), Ok l)).
Proof.
  split; intros l off F.
  - rewrite (parses_many_all parse_ext write_ext l).
    + f_equal. f_equal. f_equal. clear off. induction F as [|c l [F1 _] _ IH]; [reflexivity|]. cbn [flat_map]. rewrite blen_app, blen_cons, IH, (write_ext_len c F1). lia.
    + intros c I. rewrite Forall_forall in F. destruct (F c I) as [F1 F2]. split; [exact (p_ext c F1 F2)|].
      intros E. pose proof (write_ext_len c F1) as L. rewrite E in L. discriminate L.
  - rewrite (parses_many_all parse_ext6 write_ext6 l).
    + f_equal. f_equal. f_equal. clear off. induction F as [|c l F1 _ IH]; [reflexivity|]. cbn [flat_map]. rewrite blen_app, blen_cons, IH, (write_ext6_len c F1). lia.
    + intros c I. rewrite Forall_forall in F. split; [exact (p_ext6 c (F c I))|].
      intros E. pose proof (write_ext6_len c (F c I)) as L. rewrite E in L. discriminate L.
Qed.
(* Refuted: that a source AS community survives.  It is always written as, and
   read back as, a route target with the same numbers. *)
Theorem C142_source_as_refuted : forall g l rest off,
  (g < 2 ^ 16 -> l < 2 ^ 32 ->
     parse_ext (mkR (write_ext (TwoOctet (Assigned T2SourceAs g l)) ++ rest) off) =
       (mkR rest (off + 8), Ok (TwoOctet (Assigned T2RouteTarget g l)))) /\
  (g < 2 ^ 32 -> l < 2 ^ 16 ->
     parse_ext (mkR (write_ext (Four (Assigned T4SourceAs g l)) ++ rest) off) =
       (mkR rest (off + 8), Ok (Four (Assigned T4RouteTarget g l)))).
Proof.
  intros g l rest off. split; intros G L.
  - change (write_ext (TwoOctet (Assigned T2SourceAs g l))) with (write_ext (TwoOctet (Assigned T2RouteTarget g l))).
    apply C142_round_trip_partial; [split; assumption|intros []].
  - change (write_ext (Four (Assigned T4SourceAs g l))) with (write_ext (Four (Assigned T4RouteTarget g l))).
    apply C142_round_trip_partial; [split; assumption|intros []].
Qed.

(* C143: any eight octets are an extended community, and any twenty an IPv6 one;
   exactly they are consumed.  With fewer octets there is an error. *)
Theorem C143_total : forall b rest off,
  (octets 8 b -> exists c, parse_ext (mkR (b ++ rest) off) = (mkR rest (off + 8), Ok c) /\ ext_fits c) /\
  (octets 20 b -> exists c, parse_ext6 (mkR (b ++ rest) off) = (mkR rest (off + 20), Ok c) /\ ext6_fits c) /\
  (blen b < 8 -> exists r e, parse_ext (mkR b off) = (r, Err e)) /\
  (blen b < 20 -> exists r e, parse_ext6 (mkR b off) = (r, Err e)).
Proof.
  intros b rest off. split; [|split; [|split]].
  - intros O. destruct (octets_two 6 b O) as [code [st [v [E [C [S V]]]]]]. destruct (ext_any code st v C S V) as [c [P [F _]]].
    exists c. rewrite E, (P rest off), <- E, (proj1 O). split; [reflexivity|exact F].
  - intros O. destruct (octets_two 18 b O) as [code [st [v [E [C [S V]]]]]]. destruct (ext6_any code st v C S V) as [c [P [F _]]].
    exists c. rewrite E, (P rest off), <- E, (proj1 O). split; [reflexivity|exact F].
  - intros L. exact (proj2 (exact_ext (mkR b off)) L).
  - intros L. exact (proj2 (exact_ext6 (mkR b off)) L).
Qed.
(* C143: what was read and is written again are the same octets, unless reserved
   bits were set.  Missing: source AS, see below. *)
Theorem C143_echo_partial : forall b rest off c r,
  (octets 8 b -> reserved_clear b -> ~ source_as_octets b -> parse_ext (mkR (b ++ rest) off) = (r, Ok c) -> write_ext c = b) /\
  (forall c', octets 20 b -> parse_ext6 (mkR (b ++ rest) off) = (r, Ok c') -> write_ext6 c' = b).
Proof.
  intros b rest off c r. split.
  - intros O R N P. destruct (octets_two 6 b O) as [code [st [v [-> [C [S V]]]]]]. destruct (ext_any code st v C S V) as [c' [P' [_ W]]].
    rewrite (P' rest off) in P. injection P as _ ->. exact (W R N).
  - intros c' O P. destruct (octets_two 18 b O) as [code [st [v [-> [C [S V]]]]]]. destruct (ext6_any code st v C S V) as [c6 [P' [_ W]]].
    rewrite (P' rest off) in P. injection P as _ ->. exact W.
Qed.
(* Refuted: a received source AS community is sent on with another sub-type. *)
Theorem C143_source_as_refuted : forall b rest off, octets 8 b -> source_as_octets b ->
  exists c v, parse_ext (mkR (b ++ rest) off) = (mkR rest (off + 8), Ok c) /\ b = hd 0 b :: 9 :: v /\ write_ext c = hd 0 b :: 2 :: v.
Proof.
  intros b rest off O N. destruct (octets_two 6 b O) as [code [st [v [-> [C [S V]]]]]].
  assert (K : (code = 0 \/ code = 2) /\ st = 9).
  { cbn in N. destruct code as [|[p|[p|p|]|]]; cbn in N; try destruct N;
      destruct st as [|[[p|p|]|[p|[p|p|]|]|]]; cbn in N; try (destruct p); cbn in N; try destruct N; auto;
      destruct p; cbn in N; try destruct N; auto. }
  destruct K as [[-> | ->] ->].
  - destruct (a_admin 2 4 two_of two_code 9 v V) as [g [l [P [G [L W]]]]].
    exists (TwoOctet (Assigned T2SourceAs g l)), v. split; [|split; [reflexivity|]].
    + assert (Q : parses parse_ext (0 :: 9 :: v) (TwoOctet (Assigned T2SourceAs g l))) by (apply (parses_cons (ret tt)), p_as; exact P).
      rewrite (Q rest off), (proj1 O). reflexivity.
    + pose proof (a_admin 2 4 (fun _ => Some T2RouteTarget) two_code 2 v V) as [g' [l' [P' [_ [_ W']]]]].
      assert (Q : g' = g /\ l' = l).
      { pose proof (P [] 0) as P0. pose proof (P' [] 0) as P0'. destruct (split_octets 2 4 v V) as [x [y [-> [X Y]]]].
        rewrite app_nil_r in P0, P0'. clear - P0 P0'. unfold parse_admin, bind, read_u8 in P0, P0'. cbn [rbuf roff] in P0, P0'.
        destruct (read_be (N.of_nat 2) (mkR (x ++ y) (0 + 1))) as [r1 [x1| | |]]; try discriminate P0.
        destruct (read_be (N.of_nat 4) r1) as [r2 [x2| | |]]; try discriminate P0. injection P0 as _ <- <-. injection P0' as _ <- <-. split; reflexivity. }
      destruct Q as [-> ->]. specialize (W' (fun k E => ltac:(injection E as <-; reflexivity))).
      cbn [write_ext hd]. f_equal. exact W'.
  - destruct (a_admin 4 2 four_of four_code 9 v V) as [g [l [P [G [L W]]]]].
    exists (Four (Assigned T4SourceAs g l)), v. split; [|split; [reflexivity|]].
    + assert (Q : parses parse_ext (2 :: 9 :: v) (Four (Assigned T4SourceAs g l))) by (apply (parses_cons (ret tt)), p_as; exact P).
      rewrite (Q rest off), (proj1 O). reflexivity.
    + pose proof (a_admin 4 2 (fun _ => Some T4RouteTarget) four_code 2 v V) as [g' [l' [P' [_ [_ W']]]]].
      assert (Q : g' = g /\ l' = l).
      { pose proof (P [] 0) as P0. pose proof (P' [] 0) as P0'. destruct (split_octets 4 2 v V) as [x [y [-> [X Y]]]].
        rewrite app_nil_r in P0, P0'. clear - P0 P0'. unfold parse_admin, bind, read_u8 in P0, P0'. cbn [rbuf roff] in P0, P0'.
        destruct (read_be (N.of_nat 4) (mkR (x ++ y) (0 + 1))) as [r1 [x1| | |]]; try discriminate P0.
        destruct (read_be (N.of_nat 2) r1) as [r2 [x2| | |]]; try discriminate P0. injection P0 as _ <- <-. injection P0' as _ <- <-. split; reflexivity. }
      destruct Q as [-> ->]. specialize (W' (fun k E => ltac:(injection E as <-; reflexivity))).
      cbn [write_ext hd]. f_equal. exact W'.
Qed.

(* C144: whether a community is reported as transitive is what its type octet
   says.  Missing: two kinds, see below. *)
Theorem C144_transitive_partial :
  (forall c, (forall o, c <> Opaque o) -> (forall s g l, c <> NFour s g l) -> transitive c = transitive_on_wire (write_ext c)) /\
  (forall c, transitive6 c = transitive_on_wire (write_ext6 c)).
Proof.
  split.
  - intros c N1 N2. destruct c; try reflexivity; [destruct (N2 st g l eq_refl)|destruct (N1 o eq_refl)| |]; cbn [transitive write_ext]; apply bit6.
  - intros c. destruct c; try reflexivity. cbn [transitive6 write_ext6]. apply bit6.
Qed.
(* Refuted: for these two kinds the answer is always the wrong one. *)
Theorem C144_transitive_refuted :
  (forall o, transitive (Opaque o) = negb (transitive_on_wire (write_ext (Opaque o)))) /\
  (forall s g l, transitive (NFour s g l) = negb (transitive_on_wire (write_ext (NFour s g l)))).
Proof. split; reflexivity. Qed.
(* Refuted: that the IANA answer is a matter of the authority bit.  A named kind
   has the bit clear and is IANA defined; an unknown one with the bit clear is not. *)
Theorem C144_authority_refuted :
  (forall c, registered c <> None -> authority_on_wire (write_ext c) = false /\ iana_defined c = true) /\
  (forall code s v, code < 128 -> authority_on_wire (write_ext (Unknown code s v)) = false /\ iana_defined (Unknown code s v) = false) /\
  (forall code s v, 128 <= code < 256 -> authority_on_wire (write_ext (Unknown code s v)) = true /\ iana_defined (Unknown code s v) = true).
Proof.
  split; [|split].
  - intros c R. destruct c as [[]|[]|[]| |[]| |[]| |[]| |]; cbn in R; try congruence; split; reflexivity.
  - intros code s v L. cbn [iana_defined write_ext]. rewrite bit7. unfold authority_on_wire. cbn [hd].
    assert (E : N.testbit code 7 = false); [|rewrite E; split; reflexivity].
    rewrite N.testbit_eqb. change (2 ^ 7) with 128. rewrite N.div_small by exact L. reflexivity.
  - intros code s v L. cbn [iana_defined write_ext]. rewrite bit7. unfold authority_on_wire. cbn [hd].
    assert (E : N.testbit code 7 = true); [|rewrite E; split; reflexivity].
    rewrite N.testbit_eqb. change (2 ^ 7) with 128. replace (code / 128) with 1; [reflexivity|].
    apply (N.div_unique code 128 1 (code - 128)); lia.
Qed.

(* C145: a community is the AS number and the value it is made of, and its text
   tells it from all others; so does the text of a large community, and the texts
   of extended communities of one AS kind among themselves. *)
Theorem C145_text_partial :
  (forall v, v < 2 ^ 32 -> collection_asn v * 65536 + collection_value v = v /\ collection_asn v < 65536 /\ collection_value v < 65536) /\
  (forall v w, v < 2 ^ 32 -> w < 2 ^ 32 -> show_community v = show_community w -> v = w) /\
  (forall a b c a' b' c', show_large a b c = show_large a' b' c' -> a = a' /\ b = b' /\ c = c') /\
  (forall a b, show_ext (TwoOctet a) = show_ext (TwoOctet b) -> a = b) /\
  (forall a b, show_ext (NTwoOctet a) = show_ext (NTwoOctet b) -> a = b) /\
  (forall a b, show_ext (Four a) = show_ext (Four b) -> a = b).
Proof.
  split; [exact halves|]. split; [exact show_community_inj|]. split; [exact show_large_inj|].
  split; [|split]; intros a b H; injection H as H; [apply two_admin_inj|apply ntwo_admin_inj|apply four_admin_inj]; exact H.
Qed.
(* Refuted: that the text of an extended community tells it from all others.  The
   route targets of a two-octet and of a four-octet AS have the same text, as have
   the VXLAN identifiers that are transitive and those that are not. *)
Theorem C145_text_refuted : forall g l, g < 2 ^ 16 -> l < 2 ^ 16 ->
  let a := TwoOctet (Assigned T2RouteTarget g l) in let b := Four (Assigned T4RouteTarget g l) in
  let c := TwoOctet (Assigned T2Vni g l) in let d := NTwoOctet (Assigned N2Vni g l) in
  show_ext a = show_ext b /\ show_ext a <> None /\ ext_fits a /\ ext_fits b /\ write_ext a <> write_ext b /\
  show_ext c = show_ext d /\ show_ext c <> None /\ ext_fits c /\ ext_fits d /\ write_ext c <> write_ext d.
Proof.
  intros g l G L a b c d. change (2 ^ 16) with 65536 in G, L. repeat split; try discriminate; cbn [ext_fits]; try (change (2 ^ 16) with 65536); try (change (2 ^ 32) with 4294967296); lia.
Qed.

(* ---- non-vacuity ---- *)
Definition ex_list : list extcomm :=
  [TwoOctet (Assigned T2RouteTarget 65000 7); TwoOctet (Unassigned 77 1 2); NTwoOctet (Assigned N2LinkBandwidth 1 2); Ip4 (Assigned I4RouteOrigin 3 4);
   NIp4 5 6 7; Four (Assigned T4RtRecord 70000 1); NFour 2 3 4; Opaque (Upa true 9); Opaque (OpUnassigned 1 [1; 2; 3; 4; 5; 6]); NOpaque 1 [1; 2; 3; 4; 5; 6];
   Evpn (MacMobility 1 2); Evpn (EsiLabel 1 [1; 2; 3]); Evpn (EvUnassigned 9 [1; 2; 3; 4; 5; 6]); Experimental 0x8a 1 [1; 2; 3; 4; 5; 6]; Unknown 0x20 1 [1; 2; 3; 4; 5; 6]].
Ltac ex_oct := split; [reflexivity|repeat constructor].
Example C142_nonvacuous : Forall (fun c => ext_fits c /\ ~ source_as c) ex_list /\
  ext_fits (TwoOctet (Assigned T2SourceAs 1 2)) /\ source_as (TwoOctet (Assigned T2SourceAs 1 2)) /\
  Forall ext6_fits [Ip6 (Assigned I6RouteTarget 1 2); NIp6 1 2 3; Unknown6 7 1 [1; 2; 3; 4; 5; 6; 7; 8; 9; 10; 11; 12; 13; 14; 15; 16; 17; 18]].
Proof.
  split; [|split; [repeat constructor|split; [exact I|]]].
  - unfold ex_list. repeat apply Forall_cons; try apply Forall_nil; (split; [|intros []]); cbn -[In];
      unfold octet, experimental, octets; repeat split; try lia; try (cbn; lia); try (repeat constructor; fail);
      try (intros T; cbn in T; repeat (destruct T as [T|T]; [discriminate T|]); destruct T); try discriminate.
  - repeat apply Forall_cons; try apply Forall_nil; cbn; unfold octet, octets; repeat split; try lia; try discriminate; repeat constructor.
Qed.
Example C143_nonvacuous :
  octets 8 [0; 2; 253; 232; 0; 0; 0; 7] /\ reserved_clear [0; 2; 253; 232; 0; 0; 0; 7] /\ ~ source_as_octets [0; 2; 253; 232; 0; 0; 0; 7] /\
  parse_ext (mkR [0; 2; 253; 232; 0; 0; 0; 7] 0) = (mkR [] 8, Ok (TwoOctet (Assigned T2RouteTarget 65000 7))) /\
  octets 8 [2; 9; 0; 0; 0; 0; 0; 0] /\ source_as_octets [2; 9; 0; 0; 0; 0; 0; 0].
Proof. split; [ex_oct|]. split; [exact I|]. split; [intros []|]. split; [reflexivity|]. split; [ex_oct|exact I]. Qed.
Example C144_nonvacuous :
  map transitive ex_list = [true; true; false; true; false; true; true; false; false; false; true; true; true; true; true] /\
  map (fun c => transitive_on_wire (write_ext c)) ex_list = [true; true; false; true; false; true; false; true; true; false; true; true; true; true; true].
Proof. split; reflexivity. Qed.
Example C145_nonvacuous :
  show_community 0xFFFFFF01 = txt "NoExport" /\ show_community (65000 * 65536 + 7) = txt "65000:7" /\
  show_ext (TwoOctet (Assigned T2RouteTarget 65000 7)) = Some (txt "rt:65000:7") /\
  show_ext (TwoOctet (Unassigned 77 1 2)) = Some (txt "unassigned-77:1:2") /\ show_large 1 2 3 = txt "1:2:3".
Proof. repeat split. Qed.

Print Assumptions C142_round_trip_partial.
Print Assumptions C142_ipv6_round_trip.
Print Assumptions C142_lists_partial.
Print Assumptions C142_source_as_refuted.
Print Assumptions C143_total.
Print Assumptions C143_echo_partial.
Print Assumptions C143_source_as_refuted.
Print Assumptions C144_transitive_partial.
Print Assumptions C144_transitive_refuted.
Print Assumptions C144_authority_refuted.
Print Assumptions C145_text_partial.
Print Assumptions C145_text_refuted.
