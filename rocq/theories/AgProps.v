(* C35: what an aggregated record says about the flows of its group. *)
From Verif Require Import Base MapLib AgModel AgSpec AgProofs.
From Coq Require Import Permutation.

(* For every configuration and every sequence of packets in a window: a record
   exists for exactly the groups that have flows, and it carries the number of
   flows, the sets of ports, domains and templates, the extreme times, and for
   each selected field the sum (in the type of the field), minimum, maximum or
   bitwise or of the values present. *)
Theorem C35_aggregates (bits : N -> N) (keys : list fref) (sel : list (fref * aggop)) (ins : list input) :
  numeric bits sel (observations ins) ->
  exists c, aggregate bits keys sel ins = Some c /\ NoDup (map fst c) /\
  (forall k r, In (k, r) c -> describes bits sel (group keys k (observations ins)) r /\ exists o, in_group keys k (observations ins) o) /\
  (forall k o, in_group keys k (observations ins) o -> exists r, In (k, r) c).
Proof.
  intros Hn. destruct (aggregate_good bits keys sel ins Hn) as (c & E & Hnd & G). exists c. split; [exact E|]. split; [exact Hnd|]. split.
  - intros k r Hin. apply (In_mget _ ckey_eqb_spec) in Hin; [|exact Hnd]. specialize (G k). rewrite Hin in G. destruct G as [Hne D]. split; [exact D|].
    destruct (group keys k (observations ins)) as [|o g] eqn:Eg; [congruence|]. exists o. apply group_in. rewrite Eg. now left.
  - intros k o Ho. specialize (G k). destruct (mget ckey_eqb k c) as [r|] eqn:Em.
    + exists r. now apply (mget_In _ ckey_eqb_spec).
    + exfalso. apply group_in in Ho. rewrite G in Ho. exact Ho.
Qed.
Print Assumptions C35_aggregates.

(* the group of a key is the flows with that exporter, protocol and key values *)
Theorem C35_group_members (keys : list fref) (k : ckey) (obss : list obs) (o : obs) :
  In o (group keys k obss) <->
  In o obss /\ o_ip o = k_ip k /\ o_ipfix o = k_ipfix k /\ map (occurrence (o_fields o)) keys = k_fields k.
Proof.
  rewrite group_in. unfold in_group, key_of. destruct k as [a b f]. cbn.
  split; [intros [H E]; injection E as <- <- <-; auto|intros (H & <- & <- & <-); auto].
Qed.
Print Assumptions C35_group_members.

(* no flow is lost or counted twice, whatever the values are; the operation
   never indexes out of bounds *)
Theorem C35_every_flow_counted_once (bits : N -> N) (keys : list fref) (sel : list (fref * aggop)) (ins : list input) :
  exists c, aggregate bits keys sel ins = Some c /\ total c = N.of_nat (length (observations ins)).
Proof.
  destruct (aggregate bits keys sel ins) as [c|] eqn:E; [|exfalso; revert E; apply aggregate_total].
  exists c. split; [reflexivity|]. now apply (aggregate_count bits keys sel ins c).
Qed.
Print Assumptions C35_every_flow_counted_once.

(* the order in which the flows arrive, and how they are spread over packets,
   do not matter *)
Theorem C35_arrival_order (bits : N -> N) (keys : list fref) (sel : list (fref * aggop)) (ins ins' : list input) c c' :
  numeric bits sel (observations ins) -> Permutation (observations ins) (observations ins') ->
  aggregate bits keys sel ins = Some c -> aggregate bits keys sel ins' = Some c' -> forall k,
  match mget ckey_eqb k c, mget ckey_eqb k c' with
  | None, None => True
  | Some r, Some r' => same_record r r'
  | _, _ => False
  end.
Proof. apply aggregate_order. Qed.
Print Assumptions C35_arrival_order.

(* what is sent on: key values, aggregated values, count, times, then the sets *)
Theorem C35_reported (port_ie tmpl_ie : N) (extra : list field) (k : ckey) (r : crec) :
  out_fields port_ie tmpl_ie extra (k, r) =
  flat_map (fun x => match x with Some f => [f] | None => [] end) (k_fields k ++ r_agg r) ++
  [(375, VNum (r_count r)); (264, VNum (r_min_exp r)); (260, VNum (r_max_exp r)); (258, VNum (r_max_col r))] ++ extra ++
  map (fun x => (port_ie, VNum x)) (r_ports r) ++ map (fun x => (405, VNum x)) (r_doms r) ++ map (fun x => (tmpl_ie, VNum x)) (r_tmpls r).
Proof. cbn [out_fields]. unfold some_list. now rewrite flat_map_app, <- app_assoc. Qed.
Print Assumptions C35_reported.

(* The sum itself is not always reported: two flows of 200 packets in an
   eight bit counter add up to 144. *)
Definition one_flow (n : N) : input := mkInput (mkFlow true 1 10 0 [(256, [(2, VNum n)])]) 1 4739 100.
Theorem C35_sum_wraps_refuted :
  exists bits sel ins c k r,
    numeric bits sel (observations ins) /\ aggregate bits [] sel ins = Some c /\ In (k, r) c /\
    r_agg r = [Some (2, VNum 144)] /\ sum (numbers (2, 0) (observations ins)) = 400.
Proof.
  exists (fun _ => 8), [((2, 0), Add)], [one_flow 200; one_flow 200]. eexists _, _, _. split; [|split; [vm_compute; reflexivity|split; [left; reflexivity|split; reflexivity]]].
  intros o r op f Ho [[= <- <-]|[]]. cbn in Ho. destruct Ho as [<-|[<-|[]]]; cbn; intros [= <-]; exists 200; cbn; split; reflexivity.
Qed.
Print Assumptions C35_sum_wraps_refuted.

(* Octet arrays of different lengths: the result of the bitwise or has the
   length of whichever flow came first. *)
Definition octets_flow (l : list N) : input := mkInput (mkFlow true 1 10 0 [(256, [(405, VBytes l)])]) 1 4739 100.
Theorem C35_or_of_octets_depends_on_order_refuted :
  exists bits sel a b c c' k r r',
    aggregate bits [] sel [a; b] = Some c /\ aggregate bits [] sel [b; a] = Some c' /\
    In (k, r) c /\ In (k, r') c' /\ r_agg r = [Some (405, VBytes [1])] /\ r_agg r' = [Some (405, VBytes [1; 2])].
Proof.
  exists (fun _ => 8), [((405, 0), BoolMapOr)], (octets_flow [1]), (octets_flow [0; 2]). do 5 eexists.
  split; [vm_compute; reflexivity|]. split; [vm_compute; reflexivity|]. split; [left; reflexivity|]. split; [left; reflexivity|]. split; reflexivity.
Qed.
Print Assumptions C35_or_of_octets_depends_on_order_refuted.

(* two flows to port 80 from two source ports and one to port 443 *)
Example C35_nonvacuous :
  let f port bytes pkts := (256, [(4, VNum 6); (11, VNum port); (1, VNum bytes); (2, VNum pkts)]) in
  let ins := [mkInput (mkFlow true 7 1000 0 [f 80 100 1; f 443 50 3]) 1 4739 5000; mkInput (mkFlow true 8 900 0 [f 80 40 2]) 1 4740 4000] in
  let sel := [((1, 0), Add); ((2, 0), Max); ((99, 0), Min)] in
  numeric (fun _ => 64) sel (observations ins) /\
  aggregate (fun _ => 64) [(4, 0); (11, 0)] sel ins =
  Some [(mkKey 1 true [Some (4, VNum 6); Some (11, VNum 80)],
         mkRec [4739; 4740] [7; 8] [256] 900 1000 4000 5000 0 [Some (1, VNum 140); Some (2, VNum 2); None] 2);
        (mkKey 1 true [Some (4, VNum 6); Some (11, VNum 443)],
         mkRec [4739] [7] [256] 1000 1000 5000 5000 0 [Some (1, VNum 50); Some (2, VNum 3); None] 1)].
Proof.
  split; [|reflexivity].
  intros o r op f Ho Hs Hf. cbn in Ho. destruct Ho as [<-|[<-|[<-|[]]]]; cbn in Hs; destruct Hs as [[= <- <-]|[[= <- <-]|[[= <- <-]|[]]]];
    cbn in Hf; try discriminate; injection Hf as <-; cbn; (eexists; split; [reflexivity|reflexivity]).
Qed.
