(* What the flow codec theorems are stated with. *)
From Verif Require Import Base AfModel FlModel.

(* The two octets after the version: the length of an IPFIX message
   (RFC 7011 section 3.1), the record count of a NetFlow v9 one. *)
Definition version_of (buf : list N) : N := match buf with a :: b :: _ => a * 256 + b | _ => 0 end.
Definition declared (buf : list N) : N := match buf with _ :: _ :: a :: b :: _ => a * 256 + b | _ => 0 end.

(* ---- templates: the last one received for an id ---- *)
Definition layout : Type := list fspec * list fspec.   (* scope fields, fields *)
Definition templates_of (s : iset) : list (N * layout) :=
  match s with
  | STemplate l => map (fun r => (tr_id r, ([], tr_fields r))) l
  | SOptions l => map (fun r => (ot_id r, (ot_scope r, ot_fields r))) l
  | SData _ _ => []
  end.
Fixpoint last_of {L : Type} (i : N) (l : list (N * L)) : option L :=
  match l with
  | [] => None
  | (j, x) :: l' => match last_of i l' with Some y => Some y | None => if i =? j then Some x else None end
  end.
Definition after {L : Type} (before : N -> option L) (l : list (N * L)) (i : N) : option L :=
  match last_of i l with Some x => Some x | None => before i end.
(* the layout in force for i after these sets, given the one before *)
Definition in_force (before : N -> option layout) (sets : list iset) : N -> option layout :=
  after before (flat_map templates_of sets).
Definition nothing {L : Type} : N -> option L := fun _ => None.
(* what a decoder's cache says *)
Definition cached (c : codec) (i : N) : option layout :=
  match tget i (c_ipfix c) with Some t => Some (t_scope t, t_fields t) | None => None end.

(* a record follows a layout: same information elements in the same order *)
Definition ie_of_field (f : field) : N * N := match f with FVal p i _ => (p, i) | FUnknown p i _ => (p, i) end.
Definition ie_of_spec (s : fspec) : N * N := (fs_pen s, fs_id s).
Definition follows (x : layout) (r : drec) : Prop :=
  map ie_of_field (dr_scope r) = map ie_of_spec (fst x) /\
  map ie_of_field (dr_fields r) = map ie_of_spec (snd x).

(* A template record for id i with n fields is announced in a buffer. *)
Definition announces (buf : list N) (i n : N) : Prop :=
  exists pre post, buf = pre ++ [i / 256; i mod 256; n / 256; n mod 256] ++ post.

(* NetFlow v9, with its own scope fields *)
Definition nlayout : Type := list nspec * list fspec.
Definition ntemplates_of (s : nset) : list (N * nlayout) :=
  match s with
  | NSTemplate l => map (fun r => (tr_id r, ([], tr_fields r))) l
  | NSOptions l => map (fun r => (no_id r, (no_scope r, no_fields r))) l
  | NSData _ _ => []
  end.
Definition nin_force (before : N -> option nlayout) (sets : list nset) : N -> option nlayout :=
  after before (flat_map ntemplates_of sets).
Definition ncached (c : codec) (i : N) : option nlayout :=
  match nget i (c_netflow c) with Some t => Some (nt_scope t, nt_fields t) | None => None end.
Definition ie_of_scope (f : nscope) : scope_ie :=
  match f with
  | NSystem _ => IeSystem | NInterface _ => IeInterface | NLineCard _ => IeLineCard
  | NCache _ => IeCache | NTemplate _ => IeTemplate | NUnknown p i _ => IeUnknown p i
  end.
Definition nfollows (x : nlayout) (r : ndrec) : Prop :=
  map ie_of_scope (nd_scope r) = map ns_ie (fst x) /\ map ie_of_field (nd_fields r) = map ie_of_spec (snd x).
Definition mentions (buf : list N) (i : N) : Prop :=
  exists pre post, buf = pre ++ [i / 256; i mod 256] ++ post.

(* ---- a decoder handed one datagram after the other ---- *)
Section Receive.
Context (iana : N -> option dtype) (vendor : N -> option (N -> option dtype)) (millis_ok : Z -> bool).
Fixpoint receive (c : codec) (dgrams : list (list N)) : list decoded * codec :=
  match dgrams with
  | [] => ([], c)
  | d :: ds => let '(c1, _, o) := decode iana vendor millis_ok c d in
               let (os, c2) := receive c1 ds in (o :: os, c2)
  end.
End Receive.
(* what the decoder may have learnt from a datagram d, given its outcome *)
Definition taught (d : list N) (o : decoded) (sets : list iset) : Prop :=
  match o with
  | Packet (Ipfix p) => sets = ip_sets p
  | Rejected _ => forall i sc fs, In (i, (sc, fs)) (flat_map templates_of sets) -> announces d i (blen sc + blen fs)
  | _ => sets = []
  end.
Definition ntaught (d : list N) (o : decoded) (sets : list nset) : Prop :=
  match o with
  | Packet (NetFlow p) => sets = np_sets p
  | Rejected _ => forall i x, In (i, x) (flat_map ntemplates_of sets) -> mentions d i
  | _ => sets = []
  end.

(* ---- well-formed templates (RFC 7011 section 3.2, 3.4) ---- *)
(* section 6.2 and table 1 of RFC 5102: the lengths a type may be announced with *)
Definition legal_length (t : dtype) (len : N) : Prop :=
  match t with
  | TOctets | TMpls | TStr | TList => True
  | TU8 | TI8 | TBool => len = 1
  | TU16 | TTcp | TI16 => 1 <= len <= 2
  | TU32 | TI32 => 1 <= len <= 4
  | TU64 | TI64 => 1 <= len <= 8
  | TF32 | TSecs | TV4 => len = 4
  | TF64 | TMillis | TMicros | TNanos => len = 8
  | TMac => len = 6
  | TV6 => len = 16
  | TU256 => 1 <= len <= 32
  end.
(* a specifier names a known element with a length legal for its type, or an
   enterprise element that is not in the registry *)
Definition legal_spec (iana : N -> option dtype) (vendor : N -> option (N -> option dtype)) (s : fspec) : Prop :=
  match (if fs_pen s =? 0 then iana (fs_id s)
         else match vendor (fs_pen s) with Some tbl => tbl (fs_id s) | None => None end) with
  | Some t => legal_length t (fs_len s)
  | None => fs_pen s <> 0
  end.
Definition spec_ok (iana : N -> option dtype) (vendor : N -> option (N -> option dtype)) (s : fspec) : Prop :=
  fs_id s < 32768 /\ fs_pen s < 4294967296 /\ fs_len s < 65536 /\ legal_spec iana vendor s.
Definition spec_size (s : fspec) : N := if fs_pen s =? 0 then 4 else 8.
Definition sizes (l : list fspec) : N := fold_right (fun s n => spec_size s + n) 0 l.

Definition template_ok iana vendor (r : trec) : Prop :=
  256 <= tr_id r < 65536 /\ Forall (spec_ok iana vendor) (tr_fields r) /\ blen (tr_fields r) < 65536.
Definition options_ok iana vendor (r : otrec) : Prop :=
  256 <= ot_id r < 65536 /\ Forall (spec_ok iana vendor) (ot_scope r) /\ Forall (spec_ok iana vendor) (ot_fields r) /\
  blen (ot_scope r) + blen (ot_fields r) < 65536.

(* ---- values that have an encoding of a given length ---- *)
Definition no_nul (b : list N) : Prop := ~ In 0 b.
Definition signed_in (bits : Z) (z : Z) : Prop := (- 2 ^ (bits - 1) <= z < 2 ^ (bits - 1))%Z.
Definition value_fits (millis_ok : Z -> bool) (t : dtype) (len : N) (v : value) : Prop :=
  match t, v with
  | TU8, VNum n => len = 1 /\ n < 256
  | TU16, VNum n => 1 <= len <= 2 /\ n < 256 ^ len
  | TTcp, VNum n => 1 <= len <= 2 /\ n < 256
  | TU32, VNum n => 1 <= len <= 4 /\ n < 256 ^ len
  | TU64, VNum n => 1 <= len <= 8 /\ n < 256 ^ len
  | TI8, VInt z => len = 1 /\ signed_in 8 z
  | TI16, VInt z => len = 2 /\ signed_in 16 z
  | TI32, VInt z => 1 <= len <= 4 /\ signed_in (8 * Z.of_N len) z
  | TI64, VInt z => 1 <= len <= 8 /\ signed_in (8 * Z.of_N len) z
  | TF32, VNum n => len = 4 /\ n < 256 ^ 4
  | TF64, VNum n => len = 8 /\ n < 256 ^ 8
  | TBool, VBool _ => len = 1
  | TMac, VBytes b => len = 6 /\ blen b = 6
  | TStr, VStr b => utf8_ok b = true /\
      ((len = 65535 /\ blen b < 256 ^ 3) \/ (len < 65535 /\ blen b <= len /\ no_nul b))
  | TSecs, VTime s n => len = 4 /\ (0 <= s < 2 ^ 32)%Z /\ n = 0
  | TMillis, VTime s n => len = 8 /\ n < 1000000000 /\ n mod 1000000 = 0 /\
      (exists m, m = (s * 1000 + Z.of_N (n / 1000000))%Z /\ signed_in 64 m /\ millis_ok m = true)
  | (TMicros | TNanos), VTime s n => len = 8 /\ (0 <= s < 2 ^ 32)%Z /\ n = 0
  | TV4, VNum n => len = 4 /\ n < 256 ^ 4
  | TV6, VNum n => len = 16 /\ n < 256 ^ 16
  | TList, VBytes b => len < 65535 /\ blen b = len
  | TOctets, VBytes b => (len = 65535 /\ blen b < 256 ^ 3) \/ (len < 65535 /\ blen b = len)
  | TMpls, VBytes b => len = 3 /\ blen b = 3
  | TU256, VBytes b => 1 <= len <= 32 /\ exists b', b = b' ++ repeat 0 (N.to_nat (32 - len)) /\ blen b' = len
  | _, _ => False
  end.
Definition fits iana vendor millis_ok (s : fspec) (f : field) : Prop :=
  ie_of_field f = ie_of_spec s /\
  match classify iana vendor (fs_pen s) (fs_id s) with
  | Some (Known t) => match f with FVal _ _ v => value_fits millis_ok t (fs_len s) v | _ => False end
  | Some VendorUnknown =>
      match f with
      | FVal _ _ (VBytes b) => (fs_len s = 65535 /\ blen b < 256 ^ 3) \/ (fs_len s < 65535 /\ blen b = fs_len s)
      | _ => False
      end
  | Some Foreign => match f with FUnknown _ _ b => fs_len s < 65535 /\ blen b = fs_len s | _ => False end
  | None => False
  end.

(* number of octets a signed or unsigned integer type is declared with *)
Definition uint_width (t : dtype) : option N :=
  match t with TU8 => Some 1 | TU16 => Some 2 | TU32 => Some 4 | TU64 => Some 8 | _ => None end.
Definition sint_width (t : dtype) : option N :=
  match t with TI8 => Some 1 | TI32 => Some 4 | TI64 => Some 8 | _ => None end.

(* ---- packets that can be written and read back ---- *)
Section Ok.
Context (iana : N -> option dtype) (vendor : N -> option (N -> option dtype)) (millis_ok : Z -> bool).
Definition least_octets (s : fspec) : N := if fs_len s =? 65535 then 1 else fs_len s.
Definition same_lengths (x y : layout) : Prop :=
  map fs_len (fst x) = map fs_len (fst y) /\ map fs_len (snd x) = map fs_len (snd y).
Definition record_fits (x : layout) (r : drec) : Prop :=
  Forall2 (fits iana vendor millis_ok) (fst x) (dr_scope r) /\
  Forall2 (fits iana vendor millis_ok) (snd x) (dr_fields r).
(* enc: the templates known to the writer, v: those known to the reader *)
Definition set_ok (enc v : N -> option layout) (s : iset) : Prop :=
  match s with
  | STemplate l => Forall (template_ok iana vendor) l
  | SOptions l => Forall (options_ok iana vendor) l
  | SData id l => 256 <= id < 65536 /\ exists lay elay,
      v id = Some lay /\ enc id = Some elay /\ same_lengths elay lay /\ Forall (record_fits lay) l /\
      (l = [] \/ exists s, In s (fst lay ++ snd lay) /\ 0 < least_octets s)
  end.
Fixpoint sets_ok (enc v : N -> option layout) (l : list iset) : Prop :=
  match l with
  | [] => True
  | s :: l' => set_ok enc v s /\ sets_ok enc (after v (templates_of s)) l'
  end.
Definition header_ok (p : ipkt) : Prop :=
  ip_time p < 256 ^ 4 /\ ip_seq p < 256 ^ 4 /\ ip_domain p < 256 ^ 4.
End Ok.

(* ---- a decoder fed with the pieces of a byte stream ---- *)
Section Stream.
Context (iana : N -> option dtype) (vendor : N -> option (N -> option dtype)) (millis_ok : Z -> bool).
(* decode until more data is asked for, as tokio's Framed does *)
Fixpoint drain (fuel : nat) (c : codec) (buf : list N) : codec * list N * list decoded :=
  match fuel with
  | O => (c, buf, [])
  | S f => match decode iana vendor millis_ok c buf with
           | (c1, rest, NeedMore) => (c1, rest, [])
           | (c1, rest, o) => let '(c2, r2, os) := drain f c1 rest in (c2, r2, o :: os)
           end
  end.
Fixpoint feed (c : codec) (buf : list N) (pieces : list (list N)) : codec * list N * list decoded :=
  match pieces with
  | [] => (c, buf, [])
  | x :: xs => let '(c1, r1, os1) := drain (S (length (buf ++ x))) c (buf ++ x) in
               let '(c2, r2, os2) := feed c1 r1 xs in (c2, r2, os1 ++ os2)
  end.
End Stream.
Definition ipfix_message (d : list N) : Prop := version_of d = 10 /\ 16 <= declared d /\ declared d = blen d.

(* ---- NetFlow v9 packets that can be written and read back ---- *)
Section NOk.
Context (iana : N -> option dtype) (vendor : N -> option (N -> option dtype)) (millis_ok : Z -> bool).
Definition nspec_ok (s : nspec) : Prop :=
  ns_len s < 65536 /\
  match ns_ie s with
  | IeSystem | IeCache | IeTemplate => True
  | IeInterface | IeLineCard => 1 <= ns_len s <= 4
  | IeUnknown pen id => pen < 256 ^ 4 /\
      if pen =? 0 then id < 32768 /\ ~ 1 <= id <= 5 else 32768 <= id < 65536
  end.
Definition noptions_ok (r : notrec) : Prop :=
  256 <= no_id r < 65536 /\ Forall nspec_ok (no_scope r) /\ Forall (spec_ok iana vendor) (no_fields r).
Definition nscope_fits (s : nspec) (f : nscope) : Prop :=
  ie_of_scope f = ns_ie s /\
  match f with
  | NSystem v | NInterface v | NLineCard v => 1 <= ns_len s <= 4 /\ v < 256 ^ ns_len s
  | NCache b | NTemplate b | NUnknown _ _ b => blen b = ns_len s
  end.
Definition nrecord_fits (x : nlayout) (r : ndrec) : Prop :=
  Forall2 nscope_fits (fst x) (nd_scope r) /\ Forall2 (fits iana vendor millis_ok) (snd x) (nd_fields r).
Definition nsame_lengths (x y : nlayout) : Prop :=
  map ns_len (fst x) = map ns_len (fst y) /\ map fs_len (snd x) = map fs_len (snd y).
Definition nset_ok (enc v : N -> option nlayout) (s : nset) : Prop :=
  match s with
  | NSTemplate l => l <> [] /\ Forall (template_ok iana vendor) l
  | NSOptions l => l <> [] /\ Forall noptions_ok l
  | NSData id l => 256 <= id < 65536 /\ l <> [] /\ exists lay elay,
      v id = Some lay /\ enc id = Some elay /\ nsame_lengths elay lay /\ Forall (nrecord_fits lay) l /\
      Forall (fun s => fs_len s < 65535) (snd lay) /\
      ((exists s, In s (fst lay) /\ 0 < ns_len s) \/ (exists s, In s (snd lay) /\ 0 < fs_len s))
  end.
Fixpoint nsets_ok (enc v : N -> option nlayout) (l : list nset) : Prop :=
  match l with
  | [] => True
  | s :: l' => nset_ok enc v s /\ nsets_ok enc (after v (ntemplates_of s)) l'
  end.
Definition nheader_ok (p : npkt) : Prop :=
  np_uptime p < 256 ^ 4 /\ np_time p < 256 ^ 4 /\ np_seq p < 256 ^ 4 /\ np_source p < 256 ^ 4.
(* template sets hold a single record *)
Definition single (s : nset) : Prop :=
  match s with NSTemplate l => exists r, l = [r] | NSOptions l => exists r, l = [r] | NSData _ _ => True end.
End NOk.

(* ---- encodings of RFC 7011 ---- *)
(* the octets b, whatever follows them, are read as x and nothing more is *)
Definition reads {A : Type} (p : parser ferr A) (b : list N) (x : A) : Prop :=
  forall rest off, p (mkR (b ++ rest) off) = (mkR rest (off + blen b), Ok x).
(* section 7: variable-length information elements *)
Definition rfc_varlen (b : list N) : list N :=
  (if blen b <? 255 then [blen b] else [255; blen b / 256; blen b mod 256]) ++ b.
(* section 6.1.5: true is 1, false is 2 *)
Definition rfc_bool (b : bool) : list N := [if b then 1 else 2].
(* section 6.1.9: seconds since the start of 1900, here as seconds since 1970 *)
Definition ntp_secs (s : N) : Z := (Z.of_N s - 2208988800)%Z.
(* sections 6.1.1 and 6.2: an unsigned number in the len low-order octets *)
Definition rfc_unsigned (len n : N) : list N := be_enc (N.to_nat len) n.
(* a number as the 32 octets of an unsigned256 *)
Definition u256_octets (n : N) : list N := be_enc 32 n.

(* the octets of a value of a type without a fixed size *)
Definition payload (f : field) : list N :=
  match f with FVal _ _ (VBytes b) => b | FVal _ _ (VStr b) => b | FUnknown _ _ b => b | _ => [] end.
Definition unknown_ie iana vendor (f : field) : Prop :=
  match f with
  | FUnknown _ _ _ => True
  | FVal pen id _ => classify iana vendor pen id = Some VendorUnknown
  end.
Definition only_templates iana vendor (s : iset) : Prop :=
  match s with
  | STemplate l => Forall (template_ok iana vendor) l
  | SOptions l => Forall (options_ok iana vendor) l
  | SData _ _ => False
  end.

(* ---- templates that may be received at all ---- *)
Section Legal.
Context (iana : N -> option dtype) (vendor : N -> option (N -> option dtype)).
Definition legal_scope (s : nspec) : Prop :=
  match ns_ie s with IeInterface | IeLineCard => 1 <= ns_len s <= 4 | _ => True end.
Definition legal_template (x : N * layout) : Prop :=
  256 <= fst x /\ Forall (legal_spec iana vendor) (fst (snd x)) /\ Forall (legal_spec iana vendor) (snd (snd x)).
Definition legal_ntemplate (x : N * nlayout) : Prop :=
  256 <= fst x /\ Forall legal_scope (fst (snd x)) /\ Forall (legal_spec iana vendor) (snd (snd x)).
Definition legal_packet (o : decoded) : Prop :=
  match o with
  | Packet (Ipfix p) => Forall legal_template (flat_map templates_of (ip_sets p))
  | Packet (NetFlow p) => Forall legal_ntemplate (flat_map ntemplates_of (np_sets p))
  | _ => True
  end.
End Legal.

(* types whose every octet string of a legal fixed length stands for a value of
   its own *)
Definition lossless (t : dtype) : Prop :=
  match t with
  | TU8 | TU16 | TU32 | TU64 | TI8 | TI32 | TI64 | TF32 | TF64 | TV4 | TV6 | TMac | TMpls | TOctets | TList | TSecs | TMillis | TU256 => True
  | TTcp | TI16 | TBool | TStr | TMicros | TNanos => False
  end.

(* The values of a field have the representation of its type: an unsigned256 is
   always 32 octets. *)
Definition typed (iana : N -> option dtype) (vendor : N -> option (N -> option dtype)) (f : field) : Prop :=
  match f with
  | FVal pen id v => classify iana vendor pen id = Some (Known TU256) -> exists b, v = VBytes b /\ blen b = 32
  | FUnknown _ _ _ => True
  end.
