(* What the collector's publishers promise about the messages given to them. *)
From Coq Require Import List Bool Arith NArith ZArith.
From Verif Require Import PbModel.
Import ListNotations.

(* what became of a message, or of one value of it *)
Inductive fate (R : Type) : Type :=
| Bad               (* it could not be encoded *)
| Delivered (r : R) (* librdkafka took its record *)
| Lost (r : R)      (* its record was given up *)
| Pending (r : R).  (* its record is being offered *)
Arguments Bad {R}. Arguments Delivered {R}. Arguments Lost {R}. Arguments Pending {R}.
Definition delivered {R} (fs : list (fate R)) : list R :=
  flat_map (fun f => match f with Delivered r => [r] | _ => [] end) fs.
Definition count_bad {R} (fs : list (fate R)) : nat := length (filter (fun f => match f with Bad => true | _ => false end) fs).
Definition count_lost {R} (fs : list (fate R)) : nat := length (filter (fun f => match f with Lost _ => true | _ => false end) fs).
Definition settled {R} (f : fate R) : Prop := match f with Pending _ => False | _ => True end.
(* nothing is pending, or the last is *)
Definition all_but_last {R} (fs : list (fate R)) : Prop :=
  Forall settled fs \/ exists gs r, fs = gs ++ [Pending r] /\ Forall settled gs.

Section Json.
  Context {T V B : Type}.
  Variable serializer : T -> option (option V * V).
  Variable to_vec : V -> option B.
  (* the record of a message: the serialised payload, and the serialised key if there is one *)
  Inductive is_record (m : T) : record B -> Prop :=
  | Unkeyed v b : serializer m = Some (None, v) -> to_vec v = Some b -> is_record m (Record None b)
  | Keyed k v kb b : serializer m = Some (Some k, v) -> to_vec v = Some b -> to_vec k = Some kb ->
      is_record m (Record (Some kb) b).
  Definition json_fate (m : T) (f : fate (record B)) : Prop :=
    match f with
    | Bad => forall r, ~ is_record m r
    | Delivered r | Lost r | Pending r => is_record m r
    end.
End Json.

Section Avro.
  Context {T V K B : Type}.
  Variable get_key : T -> option K.
  Variable to_vec : K -> option B.
  Variable get_values : T -> option (list V).
  Inductive is_key (m : T) : option B -> Prop :=
  | NoKey : get_key m = None -> is_key m None
  | SomeKey k b : get_key m = Some k -> to_vec k = Some b -> is_key m (Some b).
  (* what became of a message: it had no values or no key, or of its values *)
  Inductive mfate : Type := Unconverted | Tried (vs : list (fate (record B))).
  Definition values_of (f : mfate) : list (fate (record B)) := match f with Unconverted => [] | Tried l => l end.
  Definition keyed (k : option B) (f : fate (record B)) : Prop :=
    match f with Bad => True | Delivered r | Lost r | Pending r => r_key r = k end.
  (* a message that was dealt with: each of its values was tried, with the message's key *)
  Definition dealt_with (m : T) (f : mfate) : Prop :=
    match f with
    | Unconverted => get_values m = None \/ forall k, ~ is_key m k
    | Tried l => exists k vs, is_key m k /\ get_values m = Some vs /\
        length l = length vs /\ Forall settled l /\ Forall (keyed k) l
    end.
  (* the message being dealt with: some values are still to come *)
  Definition under_way (m : T) (f : mfate) : Prop :=
    match f with
    | Unconverted => False
    | Tried l => exists k vs, is_key m k /\ get_values m = Some vs /\
        length l <= length vs /\ all_but_last l /\ Forall (keyed k) l
    end.
  (* what the publisher says about a message *)
  Definition reported (f : mfate) : outcome :=
    match f with
    | Unconverted => NotConverted
    | Tried [] => NothingToSend
    | Tried l =>
        if forallb (fun f => match f with Delivered _ => true | _ => false end) l then AllSent
        else if existsb (fun f => match f with Delivered _ => true | _ => false end) l then PartlySent
        else NoneSent
    end.
  Definition count_unconverted (fs : list mfate) : nat :=
    length (filter (fun f => match f with Unconverted => true | _ => false end) fs).
End Avro.
Arguments mfate : clear implicits.

Definition jbusy {T B} (j : json T B) : bool := match j_phase j with JTrying _ _ => true | _ => false end.
Definition abusy {T V B} (a : avro T V B) : bool := match a_phase a with AEncoding _ _ _ _ _ | ATrying _ _ _ _ _ _ => true | _ => false end.
Definition jover {T B} (j : json T B) : bool := match j_phase j with JOver _ => true | _ => false end.
Definition aover {T V B} (a : avro T V B) : bool := match a_phase a with AOver _ => true | _ => false end.
Definition hover {T M} (h : http T M) : bool := match h_phase h with HOver _ => true | _ => false end.
Definition yover {T B C L} (y : yang T B C L) : bool := match y_phase y with YOver _ => true | _ => false end.
Definition jidle {T B} (j : json T B) : Prop := j_phase j = JIdle.

(* the requests the HTTP server answered, with whatever status *)
Definition answered {M} (p : list M * response) : bool := match snd p with Response _ => true | Failed => false end.
Definition settings (c : endpoint) : client :=
  Client (e_tcp_keepalive c) (e_pool_idle_timeout c) (e_pool_max_idle c) (e_timeout c) (e_connect_timeout c).

Section Yang.
  Context {T V B C L : Type}.
  Variable eqc : C -> C -> bool.
  Variable content_id : T -> option C.
  Variable get_key : T -> option V.
  Variable serialize_json : T -> option B.
  Variable to_vec : V -> option B.
  Variable default : option Z.
  Variable custom : list (C * Z).
  Inductive is_yrecord (m : T) : record B -> Prop :=
  | YUnkeyed b : serialize_json m = Some b -> get_key m = None -> is_yrecord m (Record None b)
  | YKeyed k kb b : serialize_json m = Some b -> get_key m = Some k -> to_vec k = Some kb ->
      is_yrecord m (Record (Some kb) b).
  (* the id a custom schema was registered with: of two with one content id, the later *)
  Definition custom_id (c : C) (id : Z) : Prop :=
    exists pre post, custom = pre ++ (c, id) :: post /\ ~ In c (map fst post).
  (* the ids that are right for a content id, given the registrations made and the lookups
     sent: the id registered for it, or the default if the cache was asked in vain *)
  Definition right_schema (regs : list (C * L * Z)) (asked : list C) (m : T) (s : option Z) : Prop :=
    match content_id m with
    | None => s = default
    | Some c =>
        (exists id, s = Some id /\ (custom_id c id \/ exists l, In (c, l, id) regs)) \/
        (s = default /\ In c asked /\ forall id, ~ custom_id c id)
    end.
  Inductive yfate : Type := YBad | YUntyped (r : record B) | YDelivered (r : yrecord B) | YLost (r : yrecord B) | YPending (r : record B).
  Definition yang_fate (regs : list (C * L * Z)) (asked : list C) (m : T) (f : yfate) : Prop :=
    match f with
    | YBad => forall r, ~ is_yrecord m r
    | YUntyped r | YPending r => is_yrecord m r
    | YDelivered r | YLost r => is_yrecord m (yr_record r) /\ right_schema regs asked m (yr_schema r)
    end.
  Definition ydelivered (fs : list yfate) : list (yrecord B) :=
    flat_map (fun f => match f with YDelivered r => [r] | _ => [] end) fs.
  Definition ycount_bad (fs : list yfate) : nat := length (filter (fun f => match f with YBad => true | _ => false end) fs).
  Definition ycount_lost (fs : list yfate) : nat := length (filter (fun f => match f with YLost _ => true | _ => false end) fs).
  Definition ysettled (f : yfate) : Prop := match f with YPending _ => False | _ => True end.
  (* the schema cache answers what it was asked (C125) *)
  Fixpoint honest (y : yang T B C L) (es : list (yevent T C L)) : Prop :=
    match es with
    | [] => True
    | e :: rest =>
        (forall r c c' l, y_phase y = YLookup r c -> e = YAnswered (Found c' l) -> c' = c) /\
        honest (yang_step eqc content_id get_key serialize_json to_vec default y e) rest
    end.
End Yang.
Arguments yfate : clear implicits.
Definition ybusy {T B C L} (y : yang T B C L) : bool :=
  match y_phase y with YIdle | YOver _ => false | _ => true end.
