(* BMP collector service: the actor that accepts router connections and hands
   their messages to subscribers, crates/bmp-service/src/actor.rs.  Line numbers are
   those of that file.

   The actor and its connection tasks run concurrently and meet at awaits; the
   model is one state with one transition per stretch of code between awaits,
   taken in any order.  Addresses, channels and messages are numbers; whether a
   subscriber's channel takes a message in time is the outcome [ok] of the
   transition that offers it.  The BMP decoder (its own model is BmpModel.v) is
   represented by the messages and the end it produces.  Statistics and logging
   are left out. *)
From Coq Require Import List NArith Bool.
From Coq Require Export List.
Import ListNotations.
Local Open Scope N_scope.

(* subscriber -> its channels, lines 201-202 (HashMap<SubscriberId, Vec<BmpSender>>) *)
Definition submap : Type := list (N * list N).
Definition sub_get (m : submap) (i : N) : option (list N) :=
  option_map snd (find (fun e => fst e =? i) m).
Definition sub_del (m : submap) (i : N) : submap := filter (fun e => negb (fst e =? i)) m.

(* one connection task, handle_connection (lines 659-824) *)
Inductive phase : Type :=
| Idle                                             (* in select, lines 697-780 *)
| Sending (seq : nat) (m : N) (pending : submap)   (* in send_to_subscribers *)
| Closing                                          (* left the loop, closing notice not sent yet *)
| Gone                                             (* returned, or aborted *)
| Crashed.                                         (* panicked *)
Record task : Type := Task {
  t_addr : N;
  t_subs : submap;      (* current_subscribers *)
  t_cursor : nat;       (* how many broadcasts lie behind subscribers_rx *)
  t_in : list (N * submap);  (* the messages decoded so far, each with the subscribers it was meant for *)
  t_phase : phase;
  t_abort : bool        (* JoinHandle::abort was called *)
}.
(* what became of one message for one subscriber *)
Record outcome : Type := Outcome {
  o_task : nat; o_seq : nat; o_msg : N; o_sub : N; o_chan : N; o_sent : bool
}.
Record actor : Type := Actor {
  a_next : N;                     (* next_subscriber_id *)
  a_subs : submap;                (* subscribers *)
  a_pub : list submap;            (* everything sent on subscribers_tx, oldest first *)
  a_tasks : list task;            (* every task ever spawned *)
  a_table : list (N * nat);       (* connection_tasks: peer -> task *)
  a_closed : list N;              (* connection_closed channel *)
  a_log : list outcome;           (* oldest first *)
  a_down : bool                   (* run has returned *)
}.
(* lines 224-249 *)
Definition init : actor := Actor 0 [] [] [] [] [] [] false.

(* broadcast::channel(16), mpsc::channel(1000), lines 232-233 *)
Definition pub_capacity : nat := 16.
Definition closed_capacity : nat := 1000.

Definition set_task (a : actor) (t : nat) (x : task) : actor :=
  Actor (a_next a) (a_subs a) (a_pub a)
    (firstn t (a_tasks a) ++ x :: skipn (S t) (a_tasks a)) (a_table a) (a_closed a) (a_log a) (a_down a).
Definition with_phase (x : task) (p : phase) : task :=
  Task (t_addr x) (t_subs x) (t_cursor x) (t_in x) p (t_abort x).
(* JoinHandle::abort only asks: a task that is running goes on to the next await
   that is not ready, see [Cancelled].  After it left its loop it does not wait any
   more (lines 782-824). *)
Definition abort (x : task) : task := Task (t_addr x) (t_subs x) (t_cursor x) (t_in x) (t_phase x) true.
Definition abort_task (a : actor) (t : nat) : actor :=
  match nth_error (a_tasks a) t with Some x => set_task a t (abort x) | None => a end.
Definition table_get (tb : list (N * nat)) (addr : N) : option nat :=
  option_map snd (find (fun e => fst e =? addr) tb).
Definition table_del (tb : list (N * nat)) (addr : N) : list (N * nat) :=
  filter (fun e => negb (fst e =? addr)) tb.
Definition with_table (a : actor) (tb : list (N * nat)) : actor :=
  Actor (a_next a) (a_subs a) (a_pub a) (a_tasks a) tb (a_closed a) (a_log a) (a_down a).
(* a new map, published to the connection tasks.  Sending without receivers fails
   and stores nothing, but then nobody is behind either (lines 408-418, 456-466). *)
Definition publish (a : actor) (next : N) (m : submap) : actor :=
  Actor next m (a_pub a ++ [m]) (a_tasks a) (a_table a) (a_closed a) (a_log a) (a_down a).

(* [senders[index]], lines 566-574; [hash] is DefaultHasher of the peer's socket
   address.  None: the remainder by zero panics. *)
Definition pick (hash : N -> N) (addr : N) (senders : list N) : option N :=
  match senders with
  | [] => None
  | [c] => Some c
  | _ => nth_error senders (N.to_nat (hash addr mod N.of_nat (length senders)))
  end.

Inductive event : Type :=
(* commands, lines 308-396 *)
| Subscribe (senders : list N)
| Unsubscribe (id : N)
| Disconnect (addr : N)
| ConnectedPeers
| Shutdown
(* the two other branches of run, lines 876-1000 *)
| TakeClosed
| Accept (addr : N)
(* steps of the task t *)
| Update (t : nat)                       (* subscribers_rx.recv() *)
| Decoded (t : nat) (m : N)              (* framed.next() = Some(Ok) *)
| Offer (t : nat) (i : nat) (ok : bool)  (* one subscriber's turn *)
| Cancelled (t : nat)                    (* the abort takes effect *)
| Ended (t : nat)                        (* framed.next() = None or an error *)
| Notice (t : nat).                      (* connection_closed_tx.try_send *)
Inductive answer : Type :=
| ASubscription (id : N) | AUnsubscribed (id : option N) | ADisconnected (b : bool)
| APeers (l : list N) | AStopped | ANone.

Section Actor.
Variable hash : N -> N.

(* lines 659-824 *)
Definition task_step (a : actor) (t : nat) (x : task) (e : event) : actor :=
  match e, t_phase x with
  | Update _, Idle =>
      let behind := (length (a_pub a) - t_cursor x)%nat in
      if Nat.eqb behind 0 then
        if a_down a then set_task a t (with_phase x Closing)    (* lines 723-731, sender dropped *)
        else a                                                  (* waits *)
      else if Nat.ltb pub_capacity behind then                  (* lines 712-722, lagged *)
        set_task a t (Task (t_addr x) (t_subs x) (length (a_pub a) - pub_capacity) (t_in x) Idle (t_abort x))
      else                                                      (* lines 702-711 *)
        set_task a t (Task (t_addr x) (nth (t_cursor x) (a_pub a) []) (S (t_cursor x)) (t_in x) Idle (t_abort x))
  | Decoded _ m, Idle =>                                        (* lines 736-755 *)
      set_task a t (Task (t_addr x) (t_subs x) (t_cursor x) (t_in x ++ [(m, t_subs x)])
                      (Sending (length (t_in x)) m (t_subs x)) (t_abort x))
  | Offer _ i ok, Sending seq m pending =>                      (* lines 565-604, in any order of the map *)
      match nth_error pending i with
      | None => match pending with [] => set_task a t (with_phase x Idle) | _ => a end
      | Some (s, senders) =>
          match pick hash (t_addr x) senders with
          | None => set_task a t (with_phase x Crashed)
          | Some c =>
              let a := set_task a t (with_phase x (Sending seq m (firstn i pending ++ skipn (S i) pending))) in
              Actor (a_next a) (a_subs a) (a_pub a) (a_tasks a) (a_table a) (a_closed a)
                (a_log a ++ [Outcome t seq m s c ok]) (a_down a)
          end
      end
  | Cancelled _, Idle | Cancelled _, Sending _ _ _ =>
      if t_abort x then set_task a t (with_phase x Gone) else a
  | Ended _, Idle => set_task a t (with_phase x Closing)        (* lines 756-779, 607-657: every error ends it *)
  | Notice _, Closing =>                                        (* lines 789-823 *)
      let a := set_task a t (with_phase x Gone) in
      if a_down a || Nat.leb closed_capacity (length (a_closed a)) then a
      else Actor (a_next a) (a_subs a) (a_pub a) (a_tasks a) (a_table a) (a_closed a ++ [t_addr x]) (a_log a) (a_down a)
  | _, _ => a
  end.
Definition event_task (e : event) : option nat :=
  match e with
  | Update t | Decoded t _ | Offer t _ _ | Cancelled t | Ended t | Notice t => Some t
  | _ => None
  end.

(* lines 832-1006; a step that is not possible changes nothing *)
Definition step (a : actor) (e : event) : actor * answer :=
  match event_task e with
  | Some t =>
      (match nth_error (a_tasks a) t with Some x => task_step a t x e | None => a end, ANone)
  | None =>
      if a_down a then (a, ANone)
      else
        match e with
        | Subscribe senders =>                                   (* lines 399-443 *)
            (publish a (a_next a + 1) (a_subs a ++ [(a_next a, senders)]), ASubscription (a_next a))
        | Unsubscribe id =>                                      (* lines 446-492 *)
            (publish a (a_next a) (sub_del (a_subs a) id),
             AUnsubscribed (option_map (fun _ => id) (sub_get (a_subs a) id)))
        | Disconnect addr =>                                     (* lines 495-547 *)
            match table_get (a_table a) addr with
            | Some t => (abort_task (with_table a (table_del (a_table a) addr)) t, ADisconnected true)
            | None => (a, ADisconnected false)
            end
        | ConnectedPeers => (a, APeers (map fst (a_table a)))    (* lines 366-393 *)
        | Shutdown =>                                            (* lines 312-329, 850-862 *)
            let a := fold_left abort_task (map snd (a_table a)) a in
            (Actor (a_next a) (a_subs a) (a_pub a) (a_tasks a) [] (a_closed a) (a_log a) true, AStopped)
        | TakeClosed =>                                          (* lines 876-911 *)
            match a_closed a with
            | [] => (a, ANone)
            | addr :: r =>
                (Actor (a_next a) (a_subs a) (a_pub a) (a_tasks a) (table_del (a_table a) addr) r (a_log a) (a_down a), ANone)
            end
        | Accept addr =>                                         (* lines 915-1000 *)
            let a1 := match table_get (a_table a) addr with Some t => abort_task a t | None => a end in
            (Actor (a_next a1) (a_subs a1) (a_pub a1)
               (a_tasks a1 ++ [Task addr (a_subs a1) (length (a_pub a1)) [] Idle false])
               (table_del (a_table a1) addr ++ [(addr, length (a_tasks a1))])
               (a_closed a1) (a_log a1) (a_down a1), ANone)
        | _ => (a, ANone)
        end
  end.
Fixpoint run (a : actor) (es : list event) : actor * list answer :=
  match es with
  | [] => (a, [])
  | e :: r => let '(a, x) := step a e in let '(a, xs) := run a r in (a, x :: xs)
  end.
End Actor.
