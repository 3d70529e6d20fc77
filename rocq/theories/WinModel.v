(* Event-time windows: crates/analytics/src/aggregation.rs.
   A time is a count of nanoseconds since the epoch. HashMaps are association
   lists (MapLib); the order in which [wflush] visits the keys is arbitrary in
   the code, and no theorem depends on it. *)
From Verif Require Import Base MapLib.
From Coq Require Import ZArith.

Definition minute : Z := 60000000000.
(* chrono DateTime<Utc>::MIN_UTC and MAX_UTC: arithmetic that leaves the range
   panics (chrono is not in /repo) *)
Definition time_min : Z := (-8334601228800000000000)%Z.
Definition time_max : Z := 8210266876799999999999%Z.
Definition in_range (t : Z) : bool := ((time_min <=? t) && (t <=? time_max))%Z.
Definition time_sub (t d : Z) : option Z := if in_range (t - d) then Some (t - d)%Z else None.
Definition time_add (t d : Z) : option Z := if in_range (t + d) then Some (t + d)%Z else None.

(* aggregation.rs:79-89 get_window_start: seconds and below set to zero, in
   UTC, where every minute starts at a multiple of 60 s *)
Definition window_start (ts : Z) : Z := (ts / minute * minute)%Z.

(* aggregation.rs:62 Window *)
Definition window : Type := (Z * Z)%type.

Section Win.
Context {K I A V : Type}.
(* the key comparison; TimeSeriesData::get_key, get_ts (aggregation.rs:65-68);
   Aggregator::init, push, flush (70-75) with the AggInit already given *)
Context (keqb : K -> K -> bool) (key_of : I -> K) (ts_of : I -> Z)
        (init : A) (push : A -> I -> A) (finish : A -> V).
(* window_duration and lateness, aggregation.rs:106-109 *)
Context (dur late : Z).

(* aggregation.rs:97-111: per key the active windows, sorted by start
   (BTreeMap), and the largest time seen *)
Record wstate : Type := mkW { w_active : list (K * list (Z * A)); w_now : list (K * Z) }.
(* aggregation.rs:118-127 *)
Definition wnew : wstate := mkW [] [].

(* BTreeMap::entry(start).or_insert_with(init).push(item), 152-155 *)
Fixpoint wpush (s : Z) (x : I) (m : list (Z * A)) : list (Z * A) :=
  match m with
  | [] => [(s, push init x)]
  | (s', a) :: m' =>
      if Z.eqb s s' then (s', push a x) :: m'
      else if Z.ltb s s' then (s, push init x) :: m
      else (s', a) :: wpush s x m'
  end.
(* 165-171: a result for one window; start + duration may leave the range *)
Fixpoint wresults (m : list (Z * A)) : option (list (window * V)) :=
  match m with
  | [] => Some []
  | (s, a) :: m' =>
      match time_add s dur, wresults m' with
      | Some e, Some r => Some (((s, e), finish a) :: r)
      | _, _ => None
      end
  end.
(* aggregation.rs:128-177 process_item. None: a panic. 160-164: split_off,
   swap and remove leave the windows after the cutoff active and hand out those
   up to and including it. *)
Definition process_item (st : wstate) (x : I) : option (wstate * list (window * V) * list I) :=
  let ts := ts_of x in
  let k := key_of x in
  let now := match mget keqb k (w_now st) with Some t => t | None => ts end in
  match time_sub now late with
  | None => None
  | Some bound =>
      if Z.ltb ts bound then Some (mkW (w_active st) (mset keqb k now (w_now st)), [], [x])
      else
        let now' := Z.max now ts in
        let ws := wpush (window_start ts) x
                    (match mget keqb k (w_active st) with Some m => m | None => [] end) in
        match time_sub now' late with
        | None => None
        | Some b' =>
            match time_sub (window_start b') dur with
            | None => None
            | Some cut =>
                match wresults (filter (fun w => Z.leb (fst w) cut) ws) with
                | None => None
                | Some out =>
                    Some (mkW (mset keqb k (filter (fun w => negb (Z.leb (fst w) cut)) ws) (w_active st))
                              (mset keqb k now' (w_now st)), out, [])
                end
            end
        end
  end.
(* aggregation.rs:181-191 flush *)
Definition wflush (st : wstate) : option (wstate * list (window * V)) :=
  match wresults (flat_map snd (w_active st)) with
  | None => None
  | Some out => Some (wnew, out)
  end.

(* aggregation.rs:197-283, 320-417: the iterator and the stream adaptor. The
   source is the list of what its successive polls answer: [Some x] an item,
   [None] Pending (never for an iterator); at its end it answers Ready(None)
   for ever. *)
Inductive answer : Type := Ready (o : option ((window * V) + I)) | Pending | Crash.
Record adaptor : Type := mkA
  { a_src : list (option I); a_w : wstate; a_buf : list (window * V); a_late : list I }.
Definition adaptor_new (src : list (option I)) : adaptor := mkA src wnew [] [].
(* aggregation.rs:240-249 get_next *)
Definition get_next (a : adaptor) : option (adaptor * ((window * V) + I)) :=
  match a_late a with
  | x :: l => Some (mkA (a_src a) (a_w a) (a_buf a) l, inr x)
  | [] => match a_buf a with
          | v :: b => Some (mkA (a_src a) (a_w a) b [], inl v)
          | [] => None
          end
  end.
(* aggregation.rs:262-289 next and 377-417 poll_next; the loop is a recursion
   over the source *)
Fixpoint poll_src (src : list (option I)) (w : wstate) (buf : list (window * V)) (lates : list I) : adaptor * answer :=
  match get_next (mkA src w buf lates) with
  | Some (a', o) => (a', Ready (Some o))
  | None =>
      match src with
      | [] =>
          match (match buf with [] => wflush w | _ => Some (w, []) end) with
          | None => (mkA src w buf lates, Crash)
          | Some (w', out) =>
              match get_next (mkA src w' (buf ++ out) lates) with
              | Some (a', o) => (a', Ready (Some o))
              | None => (mkA src w' (buf ++ out) lates, Ready None)
              end
          end
      | None :: src' => (mkA src' w buf lates, Pending)
      | Some x :: src' =>
          match process_item w x with
          | None => (mkA src' w buf lates, Crash)
          | Some (w', out, l) => poll_src src' w' (buf ++ out) (lates ++ l)
          end
      end
  end.
Definition poll (a : adaptor) : adaptor * answer := poll_src (a_src a) (a_w a) (a_buf a) (a_late a).
(* the answers of n successive polls *)
Fixpoint polls (n : nat) (a : adaptor) : list answer :=
  match n with
  | O => []
  | S n' => let (a', o) := poll a in o :: polls n' a'
  end.
End Win.
