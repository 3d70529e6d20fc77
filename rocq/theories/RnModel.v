(* Sampling renormalization of flow records:
   crates/collector/src/flow/renormalization/logic.rs.
   f64 is the specification of IEEE 754 binary64 in Coq.Floats.SpecFloat
   (round to nearest even). Statistics and logging are left out. *)
From Verif Require Import Base.
From Coq Require Export Floats.SpecFloat.

Definition f64 : Type := spec_float.
Definition fmul : f64 -> f64 -> f64 := SFmul 53 1024.
Definition fdiv : f64 -> f64 -> f64 := SFdiv 53 1024.
Definition fadd : f64 -> f64 -> f64 := SFadd 53 1024.
(* n as f64, for an unsigned integer *)
Definition f_of (n : N) : f64 := binary_normalize 53 1024 (Z.of_N n) 0 false.
(* x as u64: towards zero, saturating, NaN to 0 *)
Definition u64_max : N := 18446744073709551615.
Definition f_to_u64 (x : f64) : N :=
  match x with
  | S754_zero _ | S754_nan | S754_infinity true | S754_finite true _ _ => 0
  | S754_infinity false => u64_max
  | S754_finite false m e =>
    N.min u64_max (match e with
                   | Zneg k => N.shiftr (Npos m) (Npos k)
                   | Zpos k => N.shiftl (Npos m) (Npos k)
                   | Z0 => Npos m
                   end)
  end.

(* The fields looked at (generated enum Field): F ie v is an IANA field with an
   unsigned value, or an enumeration by its number; FProb is
   samplingProbability (311); FRenorm is isRenormalized; FOther any other
   field. *)
Inductive field : Type := F (ie v : N) | FProb (p : f64) | FRenorm (b : bool) | FOther (x : N).

(* logic.rs:30-88 *)
Definition count_based_k (interval space : N) : option f64 :=
  if interval =? 0 then None else Some (fdiv (fadd (f_of space) (f_of interval)) (f_of interval)).
Definition n_out_of_n_k (size population : N) : option f64 :=
  if size =? 0 then None else Some (fdiv (f_of population) (f_of size)).
Definition probabilistic_k (p : f64) : option f64 :=
  if SFltb (S754_zero false) p && SFleb p (f_of 1) then Some (fdiv (f_of 1) p) else None.

(* 90-105 *)
Record params : Type := mkP {
  p34 : option N; p35 : option N; p49 : option N; p50 : option N; p304 : option N;
  p305 : option N; p306 : option N; p309 : option N; p310 : option N; p311 : option f64 }.
Definition params_default : params := mkP None None None None None None None None None None.

(* 107-261; selectorAlgorithm numbers: 1 SystematiccountbasedSampling,
   3 RandomnoutofNSampling, 4 UniformprobabilisticSampling *)
Definition factor (p : params) : option f64 :=
  match p304 p with
  | Some alg =>
    if alg =? 1 then match p305 p, p306 p with Some interval, Some space => count_based_k interval space | _, _ => None end
    else if alg =? 3 then match p309 p, p310 p with Some size, Some population => n_out_of_n_k size population | _, _ => None end
    else if alg =? 4 then match p311 p with Some pr => probabilistic_k pr | None => None end
    else None
  | None =>
    match p49 p with
    | Some alg => if (alg =? 1) || (alg =? 2) then match p50 p with Some interval => Some (f_of interval) | None => None end else None
    | None =>
      match p35 p with
      | Some alg => if (alg =? 1) || (alg =? 2) then match p34 p with Some interval => Some (f_of interval) | None => None end else None
      | None =>
        match p305 p, p306 p with
        | Some interval, Some space => count_based_k interval space
        | _, _ =>
          match p309 p, p310 p with
          | Some size, Some population => n_out_of_n_k size population
          | _, _ =>
            match p311 p with
            | Some pr => probabilistic_k pr
            | None =>
              match p50 p with
              | Some interval => Some (f_of interval)
              | None => match p34 p with Some interval => Some (f_of interval) | None => None end
              end
            end
          end
        end
      end
    end
  end.

(* 321-336: one field of the loop *)
Definition note (p : params) (f : field) : params :=
  match f with
  | F ie v =>
    let '(mkP a b c d e g h i j k) := p in
    if ie =? 34 then mkP (Some v) b c d e g h i j k
    else if ie =? 35 then mkP a (Some v) c d e g h i j k
    else if ie =? 49 then mkP a b (Some v) d e g h i j k
    else if ie =? 50 then mkP a b c (Some v) e g h i j k
    else if ie =? 304 then mkP a b c d (Some v) g h i j k
    else if ie =? 305 then mkP a b c d e (Some v) h i j k
    else if ie =? 306 then mkP a b c d e g (Some v) i j k
    else if ie =? 309 then mkP a b c d e g h (Some v) j k
    else if ie =? 310 then mkP a b c d e g h i (Some v) k
    else p
  | FProb v => mkP (p34 p) (p35 p) (p49 p) (p50 p) (p304 p) (p305 p) (p306 p) (p309 p) (p310 p) (Some v)
  | _ => p
  end.
(* 341-362: octetDeltaCount 1, packetDeltaCount 2, octetTotalCount 85,
   packetTotalCount 86 *)
Definition is_counter (ie : N) : bool := (ie =? 1) || (ie =? 85) || (ie =? 2) || (ie =? 86).
Definition scale (k : f64) (f : field) : field :=
  match f with
  | F ie v => if is_counter ie then F ie (f_to_u64 (fmul (f_of v) k)) else f
  | _ => f
  end.
Definition counts (f : field) : bool := match f with F ie _ => is_counter ie | _ => false end.
(* 263-374 *)
Definition renormalize_fields (fs : list field) : list field :=
  match factor (fold_left note fs params_default) with
  | Some k => map (scale k) fs ++ (if existsb counts fs then [FRenorm true] else [])
  | None => fs
  end.

(* 376-500: sets of a packet; a record is its scope fields and fields *)
Definition record : Type := (list field * list field)%type.
Inductive set : Type := SData (id : N) (records : list record) | STemplates.
Definition renormalize (sets : list set) : list set :=
  flat_map (fun s => match s with
    | SData id records =>
      [SData id (map (fun r : record => (fst r, renormalize_fields (snd r)))
                     (filter (fun r : record => match fst r with [] => true | _ => false end) records))]
    | STemplates => []
    end) sets.
