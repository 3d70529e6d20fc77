(* Words for the statements about BGP peers and the listener. *)
From Coq Require Import List Bool Arith.
From Verif Require Import LpModel.
Import ListNotations.

(* ---- peers ---- *)
Definition reachable (s : state) : Prop := exists es, s = after init es.
(* a peer with this key was created and not removed since *)
Definition present (es : list event) (k : nat) : Prop :=
  fold_left (fun b e => match e with
                        | Create k' => if k' =? k then true else b
                        | Remove k' => if k' =? k then false else b
                        | _ => b
                        end) es false = true.
Definition keys (s : state) : list nat := map fst (registered s).
(* the commands a peer was sent and that were not refused, in order *)
Definition accepted (s : state) (g : nat) : list nat :=
  filter (fun c => negb (existsb (Nat.eqb c) (refused s)) &&
                   match nth_error (calls s) c with Some (g', _) => g' =? g | None => false end) (seq 0 (length (calls s))).
(* no task has a command to take *)
Definition quiet (s : state) : Prop := forall g, step s (Work g) = None.

(* ---- listener ---- *)
Section L.
Variable dynamic : bool.
Variable n : nat.                     (* sockets *)
Variable peers : list nat.            (* the address of each peer made before *)
Variable handles : list (nat * nat).  (* those registered with the listener *)
(* every handle registered for an address is that of the peer with this address *)
Definition sound_handles : Prop := forall k g, In (k, g) handles -> nth_error peers g = Some k.
Definition lreach (es : list levent) : lstate := lafter dynamic (linit n (rev peers) handles) es.
(* connections that arrived: address, connection *)
Definition arrived (es : list levent) : list (nat * nat) :=
  flat_map (fun e => match e with Arrive i (Conn k c) => if i <? n then [(k, c)] else [] | _ => [] end) es.
(* peer [g] is the one for address [k] *)
Definition peer_for (s : lstate) (k g : nat) : Prop := nth_error (rev (l_known s)) g = Some k.
(* where a connection can be *)
Definition waiting_in (k : socket) : list nat :=
  flat_map (fun x => match x with Conn _ c => [c] | AcceptError => [] end) (k_backlog k).
Definition held (s : lstate) : list nat := match l_control s with First _ c _ => [c] | _ => [] end.
Definition everywhere (s : lstate) : list nat :=
  map snd (l_given s) ++ l_closed s ++ held s ++ flat_map waiting_in (l_sockets s).
(* what the listener does by itself *)
Definition internal (e : levent) : Prop := match e with Turn | Accept _ => True | _ => False end.
Definition lquiet (s : lstate) : Prop := forall e, internal e -> lstep dynamic s e = None.
Definition serving (s : lstate) : Prop := l_control s = Head \/ l_control s = Next.
Inductive lruns : lstate -> list levent -> lstate -> Prop :=
| LR_nil s : lruns s [] s
| LR_cons s e s1 es s2 : lstep dynamic s e = Some s1 -> lruns s1 es s2 -> lruns s (e :: es) s2.
End L.
