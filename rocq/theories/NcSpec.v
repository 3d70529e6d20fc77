(* Specification vocabulary for the NETCONF codec (C25, C26): RFC 6242
   framing as a peer writes it. *)
From Verif Require Import Base FramingModel NcModel.

(* A chunk-framed message is a list of chunks; RFC 6242 4.2. *)
Definition rfc_chunk (c : list N) : list N := [10; 35] ++ dec (blen c) ++ [10] ++ c.
Definition rfc_chunks (cs : list (list N)) : list N := flat_map rfc_chunk cs.
Definition rfc_end : list N := [10; 35; 35; 10].
Definition rfc_message (cs : list (list N)) : list N := rfc_chunks cs ++ rfc_end.
Definition rfc_stream (ms : list (list (list N))) : list N := flat_map rfc_message ms.
(* chunk sizes RFC 6242 allows *)
Definition chunk_ok (c : list N) : Prop := 1 <= blen c <= 4294967295.
(* A message the codec has a chance with: at least one chunk, and the last
   one has five bytes or more. *)
Definition message_ok (cs : list (list N)) : Prop :=
  Forall chunk_ok cs /\ exists cs' c, cs = cs' ++ [c] /\ 5 <= blen c.

(* "]]>]]>" first appears right after the payload. *)
Definition ends_hello (p : list N) : Prop :=
  forall pre post, p ++ [93; 93; 62; 93; 93; 62] = pre ++ [93; 93; 62; 93; 93; 62] ++ post -> post = [].

(* The bytes still to come after a read boundary: it falls between the last
   chunk of some message and the last byte of that message's end mark. *)
Definition cut_in_end (ms : list (list (list N))) (rest : list N) : Prop :=
  exists ms1 m ms2 t1 t2, ms = ms1 ++ m :: ms2 /\ rfc_end = t1 ++ t2 /\ t2 <> [] /\ rest = t2 ++ rfc_stream ms2.
(* no read of xs stops there *)
Definition safe_reads (ms : list (list (list N))) (xs : list (list N)) : Prop :=
  forall k, (0 < k)%nat -> ~ cut_in_end ms (concat (skipn k xs)).

(* the messages among the answers *)
Definition nc_items {M} (os : list (dout M nc_err)) : list M :=
  flat_map (fun o => match o with DItem m => [m] | _ => [] end) os.
