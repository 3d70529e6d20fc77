(* C07, C08: the byte reader every parser is built on. *)
From Verif Require Import Base BaseLemmas ReaderSpec ReaderProofs.

(* C07a: reading |data| bytes at any position of any buffer returns exactly
   data, moves the position past it and keeps the rest. *)
Theorem C07_read_returns_next_bytes : forall pre data post : list N,
  read_bytes (blen data) (mkR (data ++ post) (blen pre)) =
  (mkR post (blen (pre ++ data)), Ok data).
Proof. exact read_bytes_ok. Qed.
Print Assumptions C07_read_returns_next_bytes.
Example C07_read_ex : read_bytes 2 (mkR [7; 8; 9] 5) = (mkR [9] 7, Ok [7; 8]).
Proof. reflexivity. Qed.

(* C07b: any sequence of successful reads partitions the buffer: what was
   returned followed by what is left is the original buffer. *)
Theorem C07_reads_partition_the_buffer : forall ns r r' bs,
  read_seq ns r = (r', Ok bs) ->
  rbuf r = concat bs ++ rbuf r' /\ map blen bs = ns /\ roff r' = roff r + blen (concat bs).
Proof. exact read_seq_cover. Qed.
Print Assumptions C07_reads_partition_the_buffer.
Example C07_reads_ex : exists r' bs, read_seq [1; 0; 2] (rnew [1; 2; 3; 4]) = (r', Ok bs).
Proof. eexists _, _. reflexivity. Qed.

(* C07c: a read either succeeds with the next bytes or fails truthfully and
   leaves the reader untouched; it never panics. *)
Theorem C07_read_total : forall n r,
  (exists b, read_bytes n r = (mkR (drop n (rbuf r)) (roff r + n), Ok b) /\
             rbuf r = b ++ drop n (rbuf r) /\ blen b = n) \/
  (remaining r < n /\ read_bytes n r = (r, Err (Eof (roff r) n (remaining r)))).
Proof. exact read_bytes_total. Qed.
Print Assumptions C07_read_total.

(* C07d: sub-readers contain exactly the next bytes and carry the absolute
   offset; a failed take leaves the reader untouched. *)
Theorem C07_subreader : forall pre data post : list N,
  take_slice (blen data) (mkR (data ++ post) (blen pre)) =
  (mkR post (blen (pre ++ data)), Ok (mkR data (blen pre))).
Proof. exact take_slice_spec. Qed.
Print Assumptions C07_subreader.
Theorem C07_subreader_fail : forall n r, remaining r < n ->
  take_slice n r = (r, Err (Eof (roff r) n (remaining r))).
Proof. exact take_slice_fail. Qed.
Print Assumptions C07_subreader_fail.

(* C08: integers carried in fewer octets than their type. *)
Theorem C08_unsigned64 : forall data post off, blen data <= 8 ->
  read_unsigned64_be (blen data) (mkR (data ++ post) off)
  = (mkR post (off + blen data), Ok (positional data)).
Proof. exact unsigned64_spec. Qed.
Print Assumptions C08_unsigned64.
Theorem C08_unsigned32 : forall data post off, blen data <= 4 ->
  read_unsigned32_be (blen data) (mkR (data ++ post) off)
  = (mkR post (off + blen data), Ok (positional data)).
Proof. exact unsigned32_spec. Qed.
Print Assumptions C08_unsigned32.
Theorem C08_signed64 : forall data post off, bytes_ok data = true -> blen data <= 8 ->
  read_signed64_be (blen data) (mkR (data ++ post) off)
  = (mkR post (off + blen data), Ok (twos_complement data)).
Proof. exact signed64_spec. Qed.
Print Assumptions C08_signed64.
Theorem C08_signed32 : forall data post off, bytes_ok data = true -> blen data <= 4 ->
  read_signed32_be (blen data) (mkR (data ++ post) off)
  = (mkR post (off + blen data), Ok (twos_complement data)).
Proof. exact signed32_spec. Qed.
Print Assumptions C08_signed32.
Example C08_signed_ex : read_signed64_be 3 (rnew [255; 255; 254; 9]) = (mkR [9] 3, Ok (-2)%Z).
Proof. vm_compute. reflexivity. Qed.
Theorem C08_too_wide64 : forall n r, 8 < n ->
  read_unsigned64_be n r = (r, Err (BadPadding (roff r) n 8)) /\
  read_signed64_be n r = (r, Err (BadPadding (roff r) n 8)).
Proof. exact (fun n r H => conj (unsigned_too_wide64 n r H) (signed_too_wide64 n r H)). Qed.
Print Assumptions C08_too_wide64.
