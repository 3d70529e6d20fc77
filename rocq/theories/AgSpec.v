(* Vocabulary for flow aggregation. *)
From Verif Require Import Base MapLib AgModel.

(* the index-th field of an IE in a record *)
Definition occurrence (fs : list field) (r : fref) : option field :=
  nth_error (filter (fun f => fst f =? fst r) fs) (N.to_nat (snd r)).

(* a data record with what is known about its packet *)
Record obs : Type := mkObs {
  o_ip : N; o_port : N; o_ipfix : bool; o_dom : N; o_exp : N; o_up : N; o_col : N; o_tmpl : N; o_fields : list field }.
Definition observations (ins : list input) : list obs :=
  flat_map (fun i => map (fun tr : N * list field =>
    mkObs (i_ip i) (i_port i) (f_ipfix (i_flow i)) (f_dom (i_flow i)) (f_exp (i_flow i)) (f_up (i_flow i)) (i_col i) (fst tr) (snd tr))
    (f_records (i_flow i))) ins.
(* two records belong together: same exporter address, protocol, and values of
   the key fields *)
Definition key_of (keys : list fref) (o : obs) : ckey := mkKey (o_ip o) (o_ipfix o) (map (occurrence (o_fields o)) keys).
Definition in_group (keys : list fref) (k : ckey) (obss : list obs) (o : obs) : Prop := In o obss /\ key_of keys o = k.
Definition group (keys : list fref) (k : ckey) (obss : list obs) : list obs :=
  filter (fun o => ckey_eqb (key_of keys o) k) obss.

(* the numbers a group has for a field *)
Definition numbers (r : fref) (g : list obs) : list N :=
  flat_map (fun o => match occurrence (o_fields o) r with Some (_, VNum n) => [n] | _ => [] end) g.
(* every value of the aggregated fields is a number of its type *)
Definition numeric (bits : N -> N) (sel : list (fref * aggop)) (obss : list obs) : Prop :=
  forall o r op f, In o obss -> In (r, op) sel -> occurrence (o_fields o) r = Some f -> exists n, snd f = VNum n /\ n < 2 ^ bits (fst r).
Definition sum (l : list N) : N := fold_right N.add 0 l.
(* v is the aggregate of the numbers ns *)
Definition aggregate_of (bits : N -> N) (ie : N) (op : aggop) (ns : list N) (v : N) : Prop :=
  match op with
  | Add => v = sum ns mod 2 ^ bits ie
  | Min => In v ns /\ forall n, In n ns -> v <= n
  | Max => In v ns /\ forall n, In n ns -> n <= v
  | BoolMapOr => forall i, N.testbit v i = true <-> exists n, In n ns /\ N.testbit n i = true
  end.
Definition least {A} (f : A -> N) (l : list A) (v : N) : Prop := (exists x, In x l /\ f x = v) /\ forall x, In x l -> v <= f x.
Definition greatest {A} (f : A -> N) (l : list A) (v : N) : Prop := (exists x, In x l /\ f x = v) /\ forall x, In x l -> f x <= v.
(* the aggregated record of a non-empty group *)
Record describes (bits : N -> N) (sel : list (fref * aggop)) (g : list obs) (r : crec) : Prop := {
  d_count : r_count r = N.of_nat (length g);
  d_ports : forall p, In p (r_ports r) <-> exists o, In o g /\ o_port o = p;
  d_doms : forall p, In p (r_doms r) <-> exists o, In o g /\ o_dom o = p;
  d_tmpls : forall p, In p (r_tmpls r) <-> exists o, In o g /\ o_tmpl o = p;
  d_nodup : NoDup (r_ports r) /\ NoDup (r_doms r) /\ NoDup (r_tmpls r);
  d_min_exp : least o_exp g (r_min_exp r);
  d_max_exp : greatest o_exp g (r_max_exp r);
  d_min_col : least o_col g (r_min_col r);
  d_max_col : greatest o_col g (r_max_col r);
  d_up : greatest (fun o => if o_ipfix o then 0 else o_up o) g (r_up r);
  d_agg : Forall2 (fun (s : fref * aggop) x =>
            match x with
            | None => forall o, In o g -> occurrence (o_fields o) (fst s) = None
            | Some f => fst f = fst (fst s) /\ numbers (fst s) g <> [] /\ exists v, snd f = VNum v /\ aggregate_of bits (fst (fst s)) (snd s) (numbers (fst s) g) v
            end) sel (r_agg r) }.

(* records that differ only in the order in which sets are listed *)
Record same_record (a b : crec) : Prop := {
  s_count : r_count a = r_count b;
  s_ports : forall p, In p (r_ports a) <-> In p (r_ports b);
  s_doms : forall p, In p (r_doms a) <-> In p (r_doms b);
  s_tmpls : forall p, In p (r_tmpls a) <-> In p (r_tmpls b);
  s_min_exp : r_min_exp a = r_min_exp b;
  s_max_exp : r_max_exp a = r_max_exp b;
  s_min_col : r_min_col a = r_min_col b;
  s_max_col : r_max_col a = r_max_col b;
  s_up : r_up a = r_up b;
  s_agg : r_agg a = r_agg b }.
(* all flows counted in a cache *)
Definition total (c : list (ckey * crec)) : N := sum (map (fun e => r_count (snd e)) c).
