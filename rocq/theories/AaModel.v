(* Flow aggregation, configuration and actor:
   crates/collector/src/flow/aggregation/config.rs and actor.rs, with the
   generated capability tests and field operations of
   crates/ipfix-code-generator/src/generator.rs. The aggregator itself is
   AgModel, the windows are WinModel. *)
From Verif Require Import Base MapLib WinModel AgModel.
From Coq Require Import ZArith.

(* ---- information elements, as far as the configuration looks at them ---- *)
(* InformationElementDataType, generator.rs:1187-1217 *)
Inductive dtype : Type :=
| octetArray | signed8 | signed16 | signed32 | signed64
| unsigned8 | unsigned16 | unsigned32 | unsigned64 | float32 | float64
| boolean | macAddress | string_t
| dateTimeSeconds | dateTimeMilliseconds | dateTimeMicroseconds | dateTimeNanoseconds
| ipv4Address | ipv6Address | basicList | subTemplateList | subTemplateMultiList | unsigned256.
(* data_type(), has_registry(), whether semantics() is identifier or flags, and
   whether the element is the variant Unknown, which answers octetArray, no
   semantics and no registry and has no field operations *)
Record iedef : Type := mkIe { d_type : dtype; d_ident_or_flags : bool; d_registry : bool; d_unknown : bool }.

(* generator.rs:1176-1213 supports_arithmetic_ops *)
Definition supports_arithmetic_ops (d : iedef) : bool :=
  if d_ident_or_flags d then false
  else if d_registry d then false
  else match d_type d with
       | signed8 | signed16 | signed32 | signed64
       | unsigned8 | unsigned16 | unsigned32 | unsigned64 | float32 | float64 => true
       | _ => false
       end.
(* generator.rs:1216-1244 supports_comparison_ops *)
Definition supports_comparison_ops (d : iedef) : bool :=
  match d_type d with
  | octetArray | boolean | macAddress | string_t | unsigned256 => false
  | _ => true
  end.
(* generator.rs:1247-1275 supports_bitwise_ops *)
Definition supports_bitwise_ops (d : iedef) : bool :=
  match d_type d with
  | float32 | float64 | string_t
  | dateTimeSeconds | dateTimeMilliseconds | dateTimeMicroseconds | dateTimeNanoseconds
  | basicList | subTemplateList | subTemplateMultiList => false
  | _ => true
  end.

(* generator.rs:580-596 is_numeric, 598-612 is_comparable, 614-629 is_bitwise:
   for which elements the field operations are generated (896-1096); there is
   no arm for Unknown *)
Definition is_numeric (d : iedef) : bool :=
  match d_type d with
  | unsigned256 => false
  | t => if d_ident_or_flags d then false else if d_registry d then false
         else match t with
              | signed8 | signed16 | signed32 | signed64
              | unsigned8 | unsigned16 | unsigned32 | unsigned64 | float32 | float64 => true
              | _ => false
              end
  end.
Definition is_comparable (d : iedef) : bool :=
  match d_type d with
  | string_t | octetArray | basicList | subTemplateList | subTemplateMultiList | unsigned256 => false
  | _ => true
  end.
Definition is_bitwise (d : iedef) : bool :=
  match d_type d with
  | string_t | float32 | float64 | basicList | subTemplateList | subTemplateMultiList
  | dateTimeSeconds | dateTimeMilliseconds | dateTimeMicroseconds | dateTimeNanoseconds => false
  | _ => true
  end.
(* aggregator.rs:172-196: the operation applied when two records of a group
   both have the field; without a generated arm it answers an error, which is
   logged, and the value stays *)
Definition has_operation (d : iedef) (op : aggop) : bool :=
  negb (d_unknown d) &&
  match op with
  | Add => is_numeric d
  | Min | Max => is_comparable d
  | BoolMapOr => is_bitwise d
  end.

(* ---- the configuration ---- *)
(* config.rs:127-137 Op; 120-125 Transform *)
Inductive op : Type := Key | Agg (a : aggop).
Inductive transform : Type := Single (o : op) | Multi (m : list (N * op)).
(* config.rs:77-82; durations in nanoseconds; index maps in order *)
Record config : Type := mkConfig { c_window : N; c_lateness : N; c_transform : list (N * transform) }.
(* config.rs:49-58 ConfigurationError *)
Inductive config_error : Type :=
| InvalidWindowDuration | LatenessExceedsWindowDuration | InvalidOperation (ie : N) (o : op).
(* config.rs:104-116 validate *)
Definition validate (c : config) : option config_error :=
  if c_window c =? 0 then Some InvalidWindowDuration
  else if c_window c <? c_lateness c then Some LatenessExceedsWindowDuration
  else None.
(* config.rs:196-232 validate_operation_compatibility *)
Definition compatible (d : iedef) (o : op) : bool :=
  match o with
  | Key => true
  | Agg Add => supports_arithmetic_ops d
  | Agg Min => supports_comparison_ops d
  | Agg Max => supports_comparison_ops d
  | Agg BoolMapOr => supports_bitwise_ops d
  end.
(* config.rs:161-167 UnifiedConfig *)
Record unified : Type := mkUnified { u_window : N; u_lateness : N; u_keys : list fref; u_sel : list (fref * aggop) }.

Section Config.
(* what is known of each element *)
Context (def : N -> iedef).
(* config.rs:246-318: one operation at one index *)
Definition select_one (ie index : N) (o : op) (acc : list fref * list (fref * aggop)) : config_error + (list fref * list (fref * aggop)) :=
  if compatible (def ie) o then
    match o with
    | Key => inr (fst acc ++ [(ie, index)], snd acc)
    | Agg a => inr (fst acc, snd acc ++ [((ie, index), a)])
    end
  else inl (InvalidOperation ie o).
Fixpoint select_multi (ie : N) (m : list (N * op)) (acc : list fref * list (fref * aggop)) : config_error + (list fref * list (fref * aggop)) :=
  match m with
  | [] => inr acc
  | (index, o) :: m' => match select_one ie index o acc with inl e => inl e | inr acc' => select_multi ie m' acc' end
  end.
Fixpoint select (l : list (N * transform)) (acc : list fref * list (fref * aggop)) : config_error + (list fref * list (fref * aggop)) :=
  match l with
  | [] => inr acc
  | (ie, t) :: l' =>
      match (match t with Single o => select_one ie 0 o acc | Multi m => select_multi ie m acc end) with
      | inl e => inl e
      | inr acc' => select l' acc'
      end
  end.
(* config.rs:234-330 try_into *)
Definition try_into (c : config) : config_error + unified :=
  match validate c with
  | Some e => inl e
  | None => match select (c_transform c) ([], []) with
            | inl e => inl e
            | inr (keys, sel) => inr (mkUnified (c_window c) (c_lateness c) keys sel)
            end
  end.
End Config.

(* ---- values that are not plain numbers ---- *)
(* generator_sub_registries.rs:104-142, 200-280: a field with a registry of
   values is an enum with a variant per assigned code (its discriminant) and
   Unassigned(code) last; the derived order compares the discriminants first.
   [codes] are the assigned codes in declaration order. Registries with nested
   reason codes (forwardingStatus) are not modelled. *)
Inductive coded : Type := Assigned (c : N) | Unassigned (c : N).
Definition decode_code (codes : list N) (n : N) : coded := if existsb (N.eqb n) codes then Assigned n else Unassigned n.
Definition code_of (x : coded) : N := match x with Assigned c => c | Unassigned c => c end.
Definition discriminant (codes : list N) (x : coded) : N :=
  match x with Assigned c => c | Unassigned _ => last codes 0 + 1 end.
Definition coded_leb (codes : list N) (a b : coded) : bool :=
  let da := discriminant codes a in let db := discriminant codes b in
  (da <? db) || ((da =? db) && (code_of a <=? code_of b)).
(* generator.rs:952-1010 min_assign_field, max_assign_field: Ord::min keeps the
   left value of two equal ones, Ord::max the right one *)
Definition coded_min (codes : list N) (a b : coded) : coded := if coded_leb codes a b then a else b.
Definition coded_max (codes : list N) (a b : coded) : coded := if coded_leb codes a b then b else a.
(* iana/src/tcp.rs:41-71: tcpControlBits is a struct of booleans in the order
   FIN, SYN, RST, PSH, ACK, URG, ECE, CWR, compared in that order; FIN is the
   lowest bit of the octet *)
Definition tcp_bits (n : N) : list bool := map (N.testbit n) [0; 1; 2; 3; 4; 5; 6; 7].
Fixpoint bools_leb (a b : list bool) : bool :=
  match a, b with
  | x :: a', y :: b' => match x, y with
                        | false, true => true
                        | true, false => false
                        | _, _ => bools_leb a' b'
                        end
  | [], _ => true
  | _ :: _, [] => false
  end.
Definition tcp_max (a b : N) : N := if bools_leb (tcp_bits a) (tcp_bits b) then b else a.

(* ---- the actor ---- *)
Definition cache : Type := list (ckey * crec).
(* aggregator.rs:110-117: the key of an item is the address of its peer, its
   time the export time (here in nanoseconds) *)
Definition item_key (i : ckey * crec) : N := k_ip (fst i).
Definition item_time (i : ckey * crec) : Z := Z.of_N (r_max_exp (snd i)).
Definition ans : Type := answer (I := ckey * crec) (V := option cache).

(* actor.rs:246-274: what became of a record: sent, dropped after a second, or
   refused because the channel is closed *)
Inductive fate : Type := Sent | TimedOut | SendError.
(* actor.rs:242-276: a task spawned for a window: the address of the peer, the
   window, the records still to send, and the one being sent with its sequence
   number *)
Record task : Type := mkTask { t_ip : N; t_win : window; t_rest : list (ckey * crec); t_now : option (N * (ckey * crec)) }.
(* a record given away: exporter, window, sequence number, record, fate *)
Record given_away : Type := mkGiven { g_ip : N; g_win : window; g_seq : N; g_entry : ckey * crec; g_fate : fate }.
Inductive ending : Type := Running | Terminated | Panicked.
(* The actor, and what happened so far: packets received, answers of the
   window stream, records given away in order. [s_queue] are the items of
   received packets not yet looked at (a packet is exploded when it arrives
   instead of when it is taken from the channel; the collection time is part of
   the input). [s_cmd]: a shutdown command is waiting, or the handle is gone. *)
Record actor : Type := mkActor {
  s_queue : list (ckey * crec); s_closed : bool; s_cmd : bool; s_ending : ending;
  s_win : wstate (K := N) (A := option cache); s_buf : list (window * option cache); s_late : list (ckey * crec);
  s_tasks : list task; s_seq : N;
  s_inputs : list input; s_answers : list ans; s_out : list given_away }.
(* actor.rs:126-138 new *)
Definition actor_new : actor := mkActor [] false false Running wnew [] [] [] 0 [] [] [].

Section Actor.
Context (bits : N -> N) (u : unified).
Let keys : list fref := u_keys u.
Let sel : list (fref * aggop) := u_sel u.
(* aggregator.rs:71-97 init, push, flush; None: a panic inside push. *)
Definition win_init : option cache := Some [].
Definition win_push (c : option cache) (i : ckey * crec) : option cache :=
  match c with Some c => push bits sel c i | None => None end.
Definition win_poll (src : list (option (ckey * crec))) (s : actor) :=
  poll N.eqb item_key item_time win_init win_push (fun c => c) (Z.of_N (u_window u)) (Z.of_N (u_lateness u))
       (mkA src (s_win s) (s_buf s) (s_late s)).
(* what remains of a source *)
Definition remaining (src : list (option (ckey * crec))) : list (ckey * crec) :=
  flat_map (fun o => match o with Some x => [x] | None => [] end) src.

(* actor.rs:201-302: one turn of the loop; commands first (biased) *)
Definition turn (s : actor) : actor :=
  match s_ending s with
  | Running =>
      if s_cmd s then
        mkActor (s_queue s) (s_closed s) (s_cmd s) Terminated (s_win s) (s_buf s) (s_late s) (s_tasks s) (s_seq s) (s_inputs s) (s_answers s) (s_out s)
      else
        let '(a', o) := win_poll (map Some (s_queue s) ++ (if s_closed s then [] else [None])) s in
        let tasks' :=
          match o with
          | Ready (Some (inl (w, Some ((k, r) :: c)))) => s_tasks s ++ [mkTask (k_ip k) w ((k, r) :: c) None]
          | _ => s_tasks s
          end in
        let ending' :=
          match o with
          | Crash => Panicked
          | Ready (Some (inl (_, None))) => Panicked
          | _ => Running
          end in
        mkActor (remaining (a_src a')) (s_closed s) (s_cmd s) ending' (a_w a') (a_buf a') (a_late a') tasks' (s_seq s)
                (s_inputs s) (s_answers s ++ [o]) (s_out s)
  | _ => s
  end.

(* what can happen: a packet arrives, the input channel closes, a shutdown
   command arrives (or the handle is dropped), the loop turns, task number i
   takes its next record, or the sending of its record ends *)
Inductive event : Type := Packet (i : input) | InputClosed | Command | Turn | Take (i : nat) | Finish (i : nat) (f : fate).
Fixpoint upd (l : list task) (i : nat) (t : task) : list task :=
  match l, i with
  | [], _ => []
  | _ :: l', O => t :: l'
  | x :: l', S i' => x :: upd l' i' t
  end.
(* sequence_number.fetch_add on an AtomicU32, actor.rs:247 *)
Definition seq_next (n : N) : N := (n + 1) mod 2 ^ 32.
(* None: the event cannot happen *)
Definition step (s : actor) (e : event) : option actor :=
  match e with
  | Packet i =>
      if s_closed s then None
      else Some (mkActor (s_queue s ++ explode keys sel i) (s_closed s) (s_cmd s) (s_ending s) (s_win s) (s_buf s) (s_late s)
                         (s_tasks s) (s_seq s) (s_inputs s ++ [i]) (s_answers s) (s_out s))
  | InputClosed =>
      Some (mkActor (s_queue s) true (s_cmd s) (s_ending s) (s_win s) (s_buf s) (s_late s) (s_tasks s) (s_seq s) (s_inputs s) (s_answers s) (s_out s))
  | Command =>
      Some (mkActor (s_queue s) (s_closed s) true (s_ending s) (s_win s) (s_buf s) (s_late s) (s_tasks s) (s_seq s) (s_inputs s) (s_answers s) (s_out s))
  | Turn => match s_ending s with Running => Some (turn s) | _ => None end
  | Take i =>
      match nth_error (s_tasks s) i with
      | Some (mkTask ip w (e :: rest) None) =>
          Some (mkActor (s_queue s) (s_closed s) (s_cmd s) (s_ending s) (s_win s) (s_buf s) (s_late s)
                        (upd (s_tasks s) i (mkTask ip w rest (Some (s_seq s, e)))) (seq_next (s_seq s)) (s_inputs s) (s_answers s) (s_out s))
      | _ => None
      end
  | Finish i f =>
      match nth_error (s_tasks s) i with
      | Some (mkTask ip w rest (Some (n, e))) =>
          Some (mkActor (s_queue s) (s_closed s) (s_cmd s) (s_ending s) (s_win s) (s_buf s) (s_late s)
                        (upd (s_tasks s) i (mkTask ip w rest None)) (s_seq s) (s_inputs s) (s_answers s)
                        (s_out s ++ [mkGiven ip w n e f]))
      | _ => None
      end
  end.
Fixpoint run (s : actor) (es : list event) : option actor :=
  match es with
  | [] => Some s
  | e :: es' => match step s e with Some s' => run s' es' | None => None end
  end.
End Actor.
