(* Vocabulary for the flow aggregation service. *)
From Verif Require Import Base MapLib WinModel AgModel AaModel.
From Verif Require WinSpec AgSpec.
From Coq Require Import ZArith.
Import AgSpec(obs, mkObs, o_ip, o_exp).

(* ---- configuration ---- *)
(* the operation configured for the index-th field of an element; without an
   index the first one *)
Definition configured (c : config) (ie index : N) (o : op) : Prop :=
  exists t, In (ie, t) (c_transform c) /\
  match t with Single o' => index = 0 /\ o' = o | Multi m => In (index, o) m end.
Definition integers : list dtype := [signed8; signed16; signed32; signed64; unsigned8; unsigned16; unsigned32; unsigned64].
Definition floats : list dtype := [float32; float64].
Definition times : list dtype := [dateTimeSeconds; dateTimeMilliseconds; dateTimeMicroseconds; dateTimeNanoseconds].
Definition addresses : list dtype := [ipv4Address; ipv6Address].
Definition lists : list dtype := [basicList; subTemplateList; subTemplateMultiList].
(* what the configuration lets through *)
Definition allowed (d : iedef) (o : op) : Prop :=
  match o with
  | Key => True
  | Agg Add => In (d_type d) (integers ++ floats) /\ d_ident_or_flags d = false /\ d_registry d = false
  | Agg Min | Agg Max => In (d_type d) (integers ++ floats ++ times ++ addresses ++ lists)
  | Agg BoolMapOr => In (d_type d) (integers ++ addresses ++ [boolean; macAddress; octetArray; unsigned256])
  end.
Definition accepted (def : N -> iedef) (c : config) : Prop := exists u, try_into def c = inr u.

(* ---- what the service reports ---- *)
Section Report.
Context (bits : N -> N) (keys : list fref) (sel : list (fref * aggop)) (dur lateness : Z).
Definition time_of (o : obs) : Z := Z.of_N (o_exp o).
(* the on-time flows of an exporter in the minute starting at b that have
   these key values *)
Definition members (obss : list obs) (ip : N) (b : Z) (k : ckey) : list obs :=
  AgSpec.group keys k (WinSpec.group N.eqb o_ip time_of lateness obss ip b).
(* records for exactly the chosen minutes: one per exporter, minute and key
   values with flows, describing all these flows *)
Record accounts (obss : list obs) (chosen : N -> Z -> Prop) (outs : list (N * window * (ckey * crec))) : Prop := {
  acc_once : NoDup (map (fun x => (fst x, fst (snd x))) outs);
  acc_true : forall ip b e k r, In (ip, (b, e), (k, r)) outs ->
    WinSpec.minute_start b /\ e = (b + dur)%Z /\ chosen ip b /\ members obss ip b k <> [] /\ AgSpec.describes bits sel (members obss ip b k) r;
  acc_all : forall ip b k, WinSpec.minute_start b -> chosen ip b -> members obss ip b k <> [] ->
    exists r, In (ip, (b, (b + dur)%Z), (k, r)) outs }.
End Report.
(* the records given away, and those a task still has *)
Definition given_records (s : actor) : list (N * window * (ckey * crec)) :=
  map (fun g => (g_ip g, g_win g, g_entry g)) (s_out s).
Definition task_records (t : task) : list (N * window * (ckey * crec)) :=
  map (fun e => (t_ip t, t_win t, e)) (match t_now t with Some (_, e) => [e] | None => [] end ++ t_rest t).
Definition held_records (s : actor) : list (N * window * (ckey * crec)) := flat_map task_records (s_tasks s).
(* the flow records discarded as late *)
Definition discarded (s : actor) : list (ckey * crec) := WinSpec.lates_of (s_answers s).
(* the window stream has said that it is over *)
Definition stream_over (s : actor) : Prop := In (Ready None) (s_answers s).
(* the actor has looked at everything it got and waits for input *)
Definition waiting (s : actor) : Prop := s_queue s = [] /\ exists l, s_answers s = l ++ [Pending].
(* every task has sent all it had *)
Definition tasks_done (s : actor) : Prop := forall t, In t (s_tasks s) -> t_now t = None /\ t_rest t = [].
