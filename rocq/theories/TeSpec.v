(* What is claimed of telemetry messages *)
From Coq Require Import NArith List String.
Import ListNotations.
From Verif Require Import TeModel.

(* a leaf that is written is read back, and is not written as null *)
Definition lawful {leaf : kind -> Type} (enc : forall k, leaf k -> json)
    (dec : forall k, json -> option (leaf k)) : Prop :=
  forall k x, dec k (enc k x) = Some x /\ enc k x <> JNull.

Definition fits (l : label) : Prop :=
  forall n, l_value l = NumberValue n -> (n < 2 ^ 64)%N.

(* nothing in the message is an empty list of labels or a null of its own *)
Definition telling {leaf} (m : message leaf) : Prop :=
  g_payload leaf m <> Some JNull
  /\ (forall l, g_operator leaf m = Some l -> l <> [] /\ Forall fits l)
  /\ (forall s, t_sub leaf (g_metadata leaf m) = Some s ->
        f_subtree (s_filter leaf s) <> Some JNull).

(* the message without its payload *)
Definition without_payload {leaf} (m : message leaf) : message leaf :=
  mk_message leaf (g_node leaf m) (g_metadata leaf m) (g_collector leaf m)
    (g_operator leaf m) None.

(* decimal digits, most significant first *)
Fixpoint value (acc : N) (s : string) : option N :=
  match s with
  | EmptyString => Some acc
  | String c r =>
      let d := Ascii.N_of_ascii c in
      if ((48 <=? d) && (d <=? 57))%bool%N then value (10 * acc + (d - 48)) r else None
  end.

(* the subscription with another replay start time *)
Definition replayed {leaf} (r : option (leaf Time)) (i : info leaf) : info leaf :=
  let t := i_target leaf i in
  mk_info leaf (i_id leaf i)
    (mk_target leaf (x_stream leaf t) (x_stream_subtree leaf t) (x_stream_xpath leaf t) r
       (x_datastore leaf t) (x_datastore_subtree leaf t) (x_datastore_xpath leaf t))
    (i_stop leaf i) (i_transport leaf i) (i_encoding leaf i) (i_purpose leaf i)
    (i_trigger leaf i) (i_models leaf i) (i_content leaf i).
