(* Vocabulary for renormalization. *)
From Verif Require Import Base RnModel.

(* the value of a field of a record, the last one if it is repeated *)
Fixpoint last_value (ie : N) (fs : list field) : option N :=
  match fs with
  | [] => None
  | F i v :: fs' => match last_value ie fs' with Some w => Some w | None => if i =? ie then Some v else None end
  | _ :: fs' => last_value ie fs'
  end.
Fixpoint last_probability (fs : list field) : option f64 :=
  match fs with
  | [] => None
  | FProb p :: fs' => match last_probability fs' with Some w => Some w | None => Some p end
  | _ :: fs' => last_probability fs'
  end.

(* sampling methods: k of N consecutive packets (RFC 5477), n out of N, each
   with a probability, one in n *)
Inductive meth : Type :=
  | CountBased (interval space : N) | NoutofN (size population : N) | Probability (p : f64) | OneIn (interval : N).
Definition has (fs : list field) (ie v : N) : Prop := last_value ie fs = Some v.
Definition lacks (fs : list field) (ie : N) : Prop := last_value ie fs = None.

(* the method a record advertises by naming an algorithm *)
Inductive named (fs : list field) : meth -> Prop :=
  | Nm_count i s : has fs 304 1 -> has fs 305 i -> has fs 306 s -> named fs (CountBased i s)
  | Nm_nofn n pop : has fs 304 3 -> has fs 309 n -> has fs 310 pop -> named fs (NoutofN n pop)
  | Nm_prob p : has fs 304 4 -> last_probability fs = Some p -> named fs (Probability p)
  | Nm_mode a i : lacks fs 304 -> has fs 49 a -> a = 1 \/ a = 2 -> has fs 50 i -> named fs (OneIn i)
  | Nm_alg a i : lacks fs 304 -> lacks fs 49 -> has fs 35 a -> a = 1 \/ a = 2 -> has fs 34 i -> named fs (OneIn i).
(* no algorithm is named: the parameters present decide, in this order *)
Definition unnamed (fs : list field) : Prop := lacks fs 304 /\ lacks fs 49 /\ lacks fs 35.
Definition no_pair (fs : list field) (a b : N) : Prop := lacks fs a \/ lacks fs b.
Inductive inferred (fs : list field) : meth -> Prop :=
  | In_count i s : unnamed fs -> has fs 305 i -> has fs 306 s -> inferred fs (CountBased i s)
  | In_nofn n pop : unnamed fs -> no_pair fs 305 306 -> has fs 309 n -> has fs 310 pop -> inferred fs (NoutofN n pop)
  | In_prob p : unnamed fs -> no_pair fs 305 306 -> no_pair fs 309 310 -> last_probability fs = Some p -> inferred fs (Probability p)
  | In_50 i : unnamed fs -> no_pair fs 305 306 -> no_pair fs 309 310 -> last_probability fs = None -> has fs 50 i -> inferred fs (OneIn i)
  | In_34 i : unnamed fs -> no_pair fs 305 306 -> no_pair fs 309 310 -> last_probability fs = None -> lacks fs 50 -> has fs 34 i -> inferred fs (OneIn i).
(* parameters that make sense to the code *)
Definition usable (m : meth) : Prop :=
  match m with
  | CountBased i _ => i <> 0
  | NoutofN n _ => n <> 0
  | Probability p => SFltb (S754_zero false) p = true /\ SFleb p (f_of 1) = true
  | OneIn _ => True
  end.
(* the sampling factor in floating point *)
Definition factor_of (m : meth) : f64 :=
  match m with
  | CountBased i s => fdiv (fadd (f_of s) (f_of i)) (f_of i)
  | NoutofN n pop => fdiv (f_of pop) (f_of n)
  | Probability p => fdiv (f_of 1) p
  | OneIn i => f_of i
  end.
(* the factor is the whole number n *)
Definition whole_factor (m : meth) (n : N) : Prop :=
  match m with
  | CountBased i s => s + i = n * i
  | NoutofN size population => population = n * size
  | Probability _ => False
  | OneIn i => i = n
  end.
Definition params_fit (m : meth) : Prop :=
  match m with
  | CountBased a b | NoutofN a b => a < 4294967296 /\ b < 4294967296
  | OneIn i => i < 4294967296
  | Probability _ => True
  end.
(* octet and packet counters, delta and total *)
Definition counter_ie (ie : N) : Prop := In ie [1; 2; 85; 86].
(* f' is f with its counter replaced by g of it *)
Definition counter_by (g : N -> N) (f f' : field) : Prop :=
  match f with
  | F ie v => (counter_ie ie -> f' = F ie (g v)) /\ (~ counter_ie ie -> f' = f)
  | _ => f' = f
  end.
Definition has_counter (fs : list field) : Prop := exists ie v, In (F ie v) fs /\ counter_ie ie.
