(** * The stages a flow passes: enrichment and renormalization

    Models the actors of /repo/crates/collector/src/flow/enrichment/actor.rs
    and /repo/crates/collector/src/flow/renormalization/actor.rs: a task
    between an input channel and an output channel.  What a stage does to a
    flow is a function here (other models here have the functions
    themselves).  Simplifications: the input and update channels take
    whatever is offered, as a full one only makes the offering side wait;
    log lines are left out; futures dropped half-way are left out. *)

From Coq Require Import List Arith Bool Lia.
Import ListNotations.

Section Stage.

(** Flows in and out, updates, and what the stage keeps between flows. *)
Variables In Out Op Cache : Type.

(** [apply_enrichment], enrichment/actor.rs 294. *)
Variable apply : Cache -> Op -> Cache.

(** [enrich], enrichment/actor.rs 321, [None] for an error; [renormalize],
    renormalization/actor.rs 145, which has no errors. *)
Variable enrich : Cache -> In -> option Out.

(** Whether a failed send ends the stage: renormalization/actor.rs 151 does,
    enrichment/actor.rs 329-331 goes on. *)
Variable send_error_ends : bool.

Inductive ending :=
| Asked           (* a shutdown command, enrichment/actor.rs 280-283 *)
| NoHandle        (* the command channel is closed, 284-287 *)
| InputClosed     (* 336-339; renormalization/actor.rs 157-160 *)
| OutputClosed.   (* renormalization/actor.rs 151 *)

Inductive phase :=
| Idle
| Sending (o : Out)      (* in [send(..).await] *)
| Ended (e : ending).

(** A receiver that [subscribe] returned: what it got, and whether it still
    exists. *)
Record subscriber := mk_sub { got : list Out; alive : bool }.

Record state := mk_state {
  at_phase : phase;
  cache : Cache;
  ops_queue : list Op;
  in_queue : list In;
  in_closed : bool;
  commands : nat;
  handle_alive : bool;       (* some clone of the handle exists *)
  capacity : nat;            (* [buffer_size] *)
  out_queue : list Out;
  subscribers : list subscriber;
  accepted : list Out;       (* everything the output channel ever took *)
  processed : list (Op + In);  (* everything taken up, in order *)
  received : nat;
  received_ops : nat;
  enrich_error : nat;
  sent : nat;
  send_error : nat
}.

(** [new], enrichment/actor.rs 449-480, renormalization/actor.rs 222-250. *)
Definition start (cap : nat) (c : Cache) : state :=
  mk_state Idle c [] [] false 0 true cap [] [] [] [] 0 0 0 0 0.

Definition with_phase (p : phase) (s : state) : state :=
  mk_state p (cache s) (ops_queue s) (in_queue s) (in_closed s) (commands s)
    (handle_alive s) (capacity s) (out_queue s) (subscribers s) (accepted s)
    (processed s) (received s) (received_ops s) (enrich_error s) (sent s)
    (send_error s).

(** The handle keeps a receiver of its own: enrichment/actor.rs 442-447. *)
Definition receivers (s : state) : bool :=
  handle_alive s || existsb alive (subscribers s).

(** One turn of the loop, enrichment/actor.rs 274-344; the branches are tried
    in order, [biased].  [None]: the stage waits. *)
Definition turn (s : state) : option state :=
  match at_phase s with
  | Ended _ => None
  | Idle =>
      match commands s with
      | S _ => Some (with_phase (Ended Asked) s)
      | O =>
          if negb (handle_alive s) then Some (with_phase (Ended NoHandle) s)
          else
            match ops_queue s with
            | op :: rest =>                                  (* 290-295 *)
                Some (mk_state Idle (apply (cache s) op) rest (in_queue s)
                  (in_closed s) (commands s) (handle_alive s) (capacity s)
                  (out_queue s) (subscribers s) (accepted s)
                  (processed s ++ [inl op]) (received s)
                  (S (received_ops s)) (enrich_error s) (sent s)
                  (send_error s))
            | [] =>
                match in_queue s with
                | x :: rest =>                               (* 303-328 *)
                    match enrich (cache s) x with
                    | Some o =>
                        Some (mk_state (Sending o) (cache s) [] rest
                          (in_closed s) (commands s) (handle_alive s)
                          (capacity s) (out_queue s) (subscribers s)
                          (accepted s) (processed s ++ [inr x])
                          (S (received s)) (received_ops s) (enrich_error s)
                          (sent s) (send_error s))
                    | None =>
                        Some (mk_state Idle (cache s) [] rest
                          (in_closed s) (commands s) (handle_alive s)
                          (capacity s) (out_queue s) (subscribers s)
                          (accepted s) (processed s ++ [inr x])
                          (S (received s)) (received_ops s)
                          (S (enrich_error s)) (sent s) (send_error s))
                    end
                | [] =>
                    if in_closed s                           (* 336-339 *)
                    then Some (with_phase (Ended InputClosed) s)
                    else None
                end
            end
      end
  | Sending o =>
      if negb (receivers s) then                             (* 329-331 *)
        Some (mk_state (if send_error_ends then Ended OutputClosed else Idle)
          (cache s) (ops_queue s) (in_queue s) (in_closed s) (commands s)
          (handle_alive s) (capacity s) (out_queue s) (subscribers s)
          (accepted s) (processed s) (received s) (received_ops s)
          (enrich_error s) (sent s) (S (send_error s)))
      else if Nat.ltb (length (out_queue s)) (capacity s) then
        Some (mk_state Idle (cache s) (ops_queue s) (in_queue s)
          (in_closed s) (commands s) (handle_alive s) (capacity s)
          (out_queue s ++ [o]) (subscribers s) (accepted s ++ [o])
          (processed s) (received s) (received_ops s) (enrich_error s)
          (S (sent s)) (send_error s))
      else None
  end.

Fixpoint set_nth {A} (l : list A) (i : nat) (x : A) : list A :=
  match l, i with
  | [], _ => []
  | _ :: l', O => x :: l'
  | y :: l', S i' => y :: set_nth l' i' x
  end.

Inductive label :=
| Turn                     (* the stage itself *)
| Offer (x : In)           (* the stage before it sends a flow *)
| CloseInput               (* the stage before it is gone *)
| Update (op : Op)         (* [update_enrichment], enrichment/actor.rs 506 *)
| Shutdown                 (* [shutdown] *)
| DropHandle               (* the last handle is dropped *)
| Subscribe                (* [subscribe], enrichment/actor.rs 495-497 *)
| Unsubscribe (k : nat)    (* a receiver is dropped *)
| Take (k : nat).          (* receiver [k] receives: async_channel hands each
                              message to one receiver *)

Definition with_subs (l : list subscriber) (q : list Out) (s : state) : state :=
  mk_state (at_phase s) (cache s) (ops_queue s) (in_queue s) (in_closed s)
    (commands s) (handle_alive s) (capacity s) q l (accepted s)
    (processed s) (received s) (received_ops s) (enrich_error s) (sent s)
    (send_error s).

Definition with_queues (ops : list Op) (q : list In) (closed : bool)
  (s : state) : state :=
  mk_state (at_phase s) (cache s) ops q closed (commands s) (handle_alive s)
    (capacity s) (out_queue s) (subscribers s) (accepted s) (processed s)
    (received s) (received_ops s) (enrich_error s) (sent s) (send_error s).

Definition with_handle (n : nat) (b : bool) (s : state) : state :=
  mk_state (at_phase s) (cache s) (ops_queue s) (in_queue s) (in_closed s)
    n b (capacity s) (out_queue s) (subscribers s) (accepted s) (processed s)
    (received s) (received_ops s) (enrich_error s) (sent s) (send_error s).

(** An ended stage has dropped its ends of the channels. *)
Definition has_ended (s : state) : bool :=
  match at_phase s with Ended _ => true | _ => false end.

(** [None]: this cannot happen in this state, or gives its caller an error. *)
Definition step (s : state) (l : label) : option state :=
  match l with
  | Turn => turn s
  | Offer x =>
      if in_closed s || has_ended s then None
      else Some (with_queues (ops_queue s) (in_queue s ++ [x]) false s)
  | CloseInput =>
      if in_closed s then None
      else Some (with_queues (ops_queue s) (in_queue s) true s)
  | Update op =>
      if handle_alive s && negb (has_ended s)
      then Some (with_queues (ops_queue s ++ [op]) (in_queue s) (in_closed s) s)
      else None
  | Shutdown =>
      (* capacity 10: enrichment/actor.rs 456, renormalization/actor.rs 228 *)
      if handle_alive s && negb (has_ended s) && Nat.ltb (commands s) 10
      then Some (with_handle (S (commands s)) true s)
      else None
  | DropHandle =>
      if handle_alive s then Some (with_handle (commands s) false s) else None
  | Subscribe =>
      if handle_alive s
      then Some (with_subs (subscribers s ++ [mk_sub [] true]) (out_queue s) s)
      else None
  | Unsubscribe k =>
      match nth_error (subscribers s) k with
      | Some b =>
          if alive b
          then Some (with_subs (set_nth (subscribers s) k (mk_sub (got b) false))
                       (out_queue s) s)
          else None
      | None => None
      end
  | Take k =>
      match nth_error (subscribers s) k, out_queue s with
      | Some b, o :: rest =>
          if alive b
          then Some (with_subs (set_nth (subscribers s) k
                       (mk_sub (got b ++ [o]) true)) rest s)
          else None
      | _, _ => None
      end
  end.

Fixpoint run (s : state) (ls : list label) : option state :=
  match ls with
  | [] => Some s
  | l :: rest =>
      match step s l with
      | Some s' => run s' rest
      | None => None
      end
  end.

End Stage.

Arguments Idle {_}.
Arguments Sending {_} _.
Arguments Ended {_} _.
Arguments mk_sub {_} _ _.
Arguments got {_} _.
Arguments alive {_} _.
Arguments mk_state {_ _ _ _} _ _ _ _ _ _ _ _ _ _ _ _ _ _ _ _ _.
Arguments at_phase {_ _ _ _} _.
Arguments cache {_ _ _ _} _.
Arguments ops_queue {_ _ _ _} _.
Arguments in_queue {_ _ _ _} _.
Arguments in_closed {_ _ _ _} _.
Arguments commands {_ _ _ _} _.
Arguments handle_alive {_ _ _ _} _.
Arguments capacity {_ _ _ _} _.
Arguments out_queue {_ _ _ _} _.
Arguments subscribers {_ _ _ _} _.
Arguments accepted {_ _ _ _} _.
Arguments processed {_ _ _ _} _.
Arguments received {_ _ _ _} _.
Arguments received_ops {_ _ _ _} _.
Arguments enrich_error {_ _ _ _} _.
Arguments sent {_ _ _ _} _.
Arguments send_error {_ _ _ _} _.
Arguments start {_ _ _ _} _ _.
Arguments with_phase {_ _ _ _} _ _.
Arguments receivers {_ _ _ _} _.
Arguments turn {_ _ _ _} _ _ _ _.
Arguments Turn {_ _}.
Arguments Offer {_ _} _.
Arguments CloseInput {_ _}.
Arguments Update {_ _} _.
Arguments Shutdown {_ _}.
Arguments DropHandle {_ _}.
Arguments Subscribe {_ _}.
Arguments Unsubscribe {_ _} _.
Arguments Take {_ _} _.
Arguments with_subs {_ _ _ _} _ _ _.
Arguments with_queues {_ _ _ _} _ _ _ _.
Arguments with_handle {_ _ _ _} _ _ _.
Arguments has_ended {_ _ _ _} _.
Arguments step {_ _ _ _} _ _ _ _ _.
Arguments run {_ _ _ _} _ _ _ _ _.
