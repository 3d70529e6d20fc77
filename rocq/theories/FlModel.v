(* IPFIX and NetFlow v9 packets and the flow codec: crates/flow-pkt/src/
   {ipfix,netflow,codec}.rs and wire/{de,}serializer/{ipfix,netflow}.rs.
   Times of packet headers are the 32 bit seconds (always valid for chrono);
   error values keep the variant and its number, not the offsets. *)
From Verif Require Import Base AfModel MapLib.
From Verif Require Export FlFieldModel.

(* A parser that also threads the templates map (&mut TemplatesMap): both are
   returned on error too, because insertions made before the error stay. *)
Definition sparser (T A : Type) : Type := T -> reader -> T * reader * res ferr A.
Definition sret {T A} (a : A) : sparser T A := fun t r => (t, r, Ok a).
Definition sfail {T A} (e : ferr) : sparser T A := fun t r => (t, r, Err e).
Definition sbind {T A B} (p : sparser T A) (f : A -> sparser T B) : sparser T B :=
  fun t r => match p t r with
             | (t', r', Ok a) => f a t' r'
             | (t', r', Err e) => (t', r', Err e)
             | (t', r', Panic) => (t', r', Panic)
             | (t', r', Diverge) => (t', r', Diverge)
             end.
Definition slift {T A} (p : parser ferr A) : sparser T A :=
  fun t r => let (r', x) := p r in (t, r', x).
Notation plift p := (slift (pmap_err FE_Parse p)).
Definition sget {T} : sparser T T := fun t r => (t, r, Ok t).
Definition smod {T} (f : T -> T) : sparser T unit := fun t r => (f t, r, Ok tt).
(* run on a sub-reader; the outer reader does not move *)
Definition son_sub {T A} (sub : reader) (p : sparser T A) : sparser T A :=
  fun t r => match p t sub with (t', _, x) => (t', r, x) end.
Notation "'sdo' x <- p ;; q" := (sbind p (fun x => q))
  (at level 200, x name, p at level 100, q at level 200, right associativity) : parse_scope.
Notation "'sdo_' p ;; q" := (sbind p (fun _ => q))
  (at level 200, p at level 100, q at level 200, right associativity) : parse_scope.
(* while cond(cur) { xs.push(p(cur)?) } *)
Fixpoint swhile {T A} (fuel : nat) (cond : reader -> bool) (p : sparser T A) : sparser T (list A) :=
  fun t r =>
    if cond r then
      match fuel with
      | O => (t, r, Diverge)
      | S f => (sdo x <- p;; sdo xs <- swhile f cond p;; sret (x :: xs)) t r
      end
    else (t, r, Ok []).
Definition swhile_all {T A} (cond : reader -> bool) (p : sparser T A) : sparser T (list A) :=
  fun t r => swhile (S (length (rbuf r))) cond p t r.
(* for _ in 0..n { xs.push(p(cur)?) } *)
Fixpoint ptimes {A} (n : nat) (p : parser ferr A) : parser ferr (list A) :=
  match n with
  | O => ret []
  | S n' => do x <- p;; do xs <- ptimes n' p;; ret (x :: xs)
  end.
Fixpoint pmapm {X A} (p : X -> parser ferr A) (l : list X) : parser ferr (list A) :=
  match l with
  | [] => ret []
  | x :: l' => do a <- p x;; do as_ <- pmapm p l';; ret (a :: as_)
  end.
(* wire/deserializer/ipfix.rs:239-250, netflow.rs:236-247 check_padding_value *)
Fixpoint first_nonzero (b : list N) : option N :=
  match b with [] => None | x :: b' => if x =? 0 then first_nonzero b' else Some x end.
Definition p_padding : parser ferr unit :=
  fun r => match first_nonzero (rbuf r) with
           | None => (mkR [] (roff r + blen (rbuf r)), Ok tt)
           | Some v => (r, Err (FE_Padding v))
           end.
(* writing several items *)
Fixpoint wmapm {X} (w : X -> res werr (list N)) (l : list X) : res werr (list N) :=
  match l with
  | [] => Ok []
  | x :: l' => rbind (w x) (fun b => rbind (wmapm w l') (fun bs => Ok (b ++ bs)))
  end.
Definition nsum (l : list N) : N := fold_right N.add 0 l.
(* iter().enumerate() with specs.get(index): the length for each field, None
   beyond the specifiers *)
Fixpoint with_lens {X} (xs : list X) (lens : list N) : list (X * option N) :=
  match xs with
  | [] => []
  | x :: xs' => match lens with
                | [] => (x, None) :: with_lens xs' []
                | l :: lens' => (x, Some l) :: with_lens xs' lens'
                end
  end.

(* ------------------------------ IPFIX ------------------------------ *)
(* ipfix.rs:34-64 DecodingTemplate, TemplatesMap *)
Record tmpl : Type := mkT { t_scope : list fspec; t_fields : list fspec; t_count : N }.
Definition tmap : Type := list (N * tmpl).
Definition tget (i : N) (m : tmap) : option tmpl := mget N.eqb i m.
Definition tset (i : N) (t : tmpl) (m : tmap) : tmap := mset N.eqb i t m.
(* ipfix.rs:85-330 the packet types *)
Record trec : Type := mkTR { tr_id : N; tr_fields : list fspec }.
Record otrec : Type := mkOT { ot_id : N; ot_scope : list fspec; ot_fields : list fspec }.
Record drec : Type := mkDR { dr_scope : list field; dr_fields : list field }.
Inductive iset : Type :=
| STemplate (l : list trec) | SOptions (l : list otrec) | SData (id : N) (l : list drec).
Record ipkt : Type := mkIP { ip_time : N; ip_seq : N; ip_domain : N; ip_sets : list iset }.

(* ---------------------------- NetFlow v9 ---------------------------- *)
(* netflow.rs:395-411 ScopeIE and its From<(u32, u16)>; the code keeps its
   enterprise bit *)
Inductive scope_ie : Type := IeSystem | IeInterface | IeLineCard | IeCache | IeTemplate | IeUnknown (pen id : N).
Definition scope_ie_of (pen id : N) : scope_ie :=
  if pen =? 0 then
    if id =? 1 then IeSystem else if id =? 2 then IeInterface else if id =? 3 then IeLineCard
    else if id =? 4 then IeCache else if id =? 5 then IeTemplate else IeUnknown pen id
  else IeUnknown pen id.
(* netflow.rs:447-464 *)
Definition scope_ie_id (i : scope_ie) : N :=
  match i with IeSystem => 1 | IeInterface => 2 | IeLineCard => 3 | IeCache => 4 | IeTemplate => 5 | IeUnknown _ id => id end.
Definition scope_ie_pen (i : scope_ie) : N := match i with IeUnknown pen _ => pen | _ => 0 end.
(* netflow.rs:428-437 data_type through ie.rs length_range *)
Definition scope_range (i : scope_ie) : option (N * N) :=
  match i with IeInterface | IeLineCard => Some (1, 5) | _ => None end.
Record nspec : Type := mkNS { ns_ie : scope_ie; ns_len : N }.
Inductive nscope : Type :=
| NSystem (v : N) | NInterface (v : N) | NLineCard (v : N)
| NCache (b : list N) | NTemplate (b : list N) | NUnknown (pen id : N) (b : list N).
Record ntmpl : Type := mkNT { nt_scope : list nspec; nt_fields : list fspec; nt_count : N }.
Definition ntmap : Type := list (N * ntmpl).
Definition nget (i : N) (m : ntmap) : option ntmpl := mget N.eqb i m.
Definition nset_ (i : N) (t : ntmpl) (m : ntmap) : ntmap := mset N.eqb i t m.
Record notrec : Type := mkNO { no_id : N; no_scope : list nspec; no_fields : list fspec }.
Record ndrec : Type := mkND { nd_scope : list nscope; nd_fields : list field }.
Inductive nset : Type :=
| NSTemplate (l : list trec) | NSOptions (l : list notrec) | NSData (id : N) (l : list ndrec).
Record npkt : Type := mkNP { np_uptime : N; np_time : N; np_seq : N; np_source : N; np_sets : list nset }.

Definition u64_incr (n : N) : N := as_u64 (n + 1).

Section Packets.
Context (iana : N -> option dtype) (vendor : N -> option (N -> option dtype)) (millis_ok : Z -> bool).
Notation p_fspec := (p_fspec iana vendor).
Notation p_spec_field := (p_fspec_field iana vendor millis_ok).
Notation w_field := (w_field iana vendor).
Notation field_len := (field_len iana vendor).

(* --- reading IPFIX --- *)
(* wire/deserializer/ipfix.rs:384-412 TemplateRecord::parse *)
Definition p_trec : sparser tmap trec :=
  sdo id <- plift (peek_be 2);;
  if id <? 256 then sfail (FE_TemplateId id) else
  sdo_ plift read_u16;;
  sdo n <- plift read_u16;;
  sdo fs <- slift (ptimes (N.to_nat n) p_fspec);;
  sdo_ smod (tset id (mkT [] fs 0));;
  sret (mkTR id fs).
(* ipfix.rs:276-326 OptionsTemplateRecord::parse *)
Definition p_otrec : sparser tmap otrec :=
  sdo id <- plift (peek_be 2);;
  if id <? 256 then sfail (FE_TemplateId id) else
  sdo_ plift read_u16;;
  sdo total <- plift read_u16;;
  sdo scope <- plift (peek_be 2);;
  if total <? scope then sfail (FE_ScopeCount scope total) else
  sdo_ plift read_u16;;
  sdo ss <- slift (ptimes (N.to_nat scope) p_fspec);;
  sdo fs <- slift (ptimes (N.to_nat (total - scope)) p_fspec);;
  sdo_ smod (tset id (mkT ss fs 0));;
  sret (mkOT id ss fs).
(* ipfix.rs:334-369 DataRecord::parse *)
Definition p_drec (t : tmpl) : parser ferr drec :=
  do ss <- pmapm p_spec_field (t_scope t);;
  do fs <- pmapm p_spec_field (t_fields t);;
  ret (mkDR ss fs).
(* ipfix.rs:187-210 min_record_length *)
Definition min_spec (s : fspec) : N := if fs_len s =? 65535 then 1 else fs_len s.
Definition min_record (t : tmpl) : N :=
  nsum (map min_spec (t_scope t)) + nsum (map min_spec (t_fields t)).
(* ipfix.rs:60-64 increment_processed_count on the entry of the map *)
Definition tincr (id : N) (m : tmap) : tmap :=
  match tget id m with Some t => tset id (mkT (t_scope t) (t_fields t) (u64_incr (t_count t))) m | None => m end.
(* ipfix.rs:133-237 Set::parse. The zero octets skipped after the records and
   whatever follows them have no effect: the sub-reader is dropped. *)
Definition p_iset : sparser tmap iset :=
  sdo id <- plift (peek_be 2);;
  if negb (id =? 2) && negb (id =? 3) && (id <? 256) then sfail (FE_SetId id) else
  sdo_ plift read_u16;;
  sdo len <- plift (peek_be 2);;
  if len <? 4 then sfail (FE_SetLength len) else
  sdo_ plift read_u16;;
  sdo sub <- plift (take_slice (len - 4));;
  if id =? 2 then
    sdo l <- son_sub sub (swhile_all (fun r => negb (ris_empty r)) p_trec);; sret (STemplate l)
  else if id =? 3 then
    sdo l <- son_sub sub (sdo l <- swhile_all (fun r => 3 <? remaining r) p_otrec;;
                          sdo_ slift p_padding;; sret l);;
    sret (SOptions l)
  else
    sdo m <- sget;;
    match tget id m with
    | None => sfail (FE_NoTemplate id)
    | Some t =>
      let min := min_record t in
      sdo l <- son_sub sub (swhile_all (fun r => (min <=? remaining r) && (0 <? min)) (slift (p_drec t)));;
      sdo_ smod (tincr id);;
      sret (SData id l)
    end.
(* ipfix.rs:54-103 IpfixPacket::parse *)
Definition p_ipkt : sparser tmap ipkt :=
  sdo v <- plift (peek_be 2);;
  if negb (v =? 10) then sfail (FE_Version v) else
  sdo_ plift read_u16;;
  sdo len <- plift (peek_be 2);;
  if len <? 16 then sfail (FE_Length len) else
  sdo_ plift read_u16;;
  sdo sub <- plift (take_slice (len - 4));;
  son_sub sub (
    sdo time <- plift read_u32;;
    sdo seq <- plift read_u32;;
    sdo dom <- plift read_u32;;
    sdo sets <- swhile_all (fun r => negb (ris_empty r)) p_iset;;
    sret (mkIP time seq dom sets)).

(* --- writing IPFIX --- *)
(* wire/serializer/ipfix.rs:84-104 *)
Definition trec_len (r : trec) : N := 4 + nsum (map fspec_len (tr_fields r)).
Definition w_trec (r : trec) : list N :=
  be_enc 2 (tr_id r) ++ be_enc 2 (as_u16 (blen (tr_fields r))) ++ flat_map w_fspec (tr_fields r).
(* ipfix.rs:117-149 *)
Definition otrec_len (r : otrec) : N :=
  6 + nsum (map fspec_len (ot_scope r)) + nsum (map fspec_len (ot_fields r)).
Definition w_otrec (r : otrec) : list N :=
  be_enc 2 (ot_id r) ++ be_enc 2 (as_u16 (blen (ot_scope r) + blen (ot_fields r)))
  ++ be_enc 2 (as_u16 (blen (ot_scope r)))
  ++ flat_map w_fspec (ot_scope r) ++ flat_map w_fspec (ot_fields r).
(* ipfix.rs:161-244 DataRecord::len and write *)
Definition flen (x : field * option N) : N :=
  match snd x with
  | None => field_len (fst x) None
  | Some l => if l =? 65535 then field_len (fst x) (Some l) else l
  end.
Definition wfield (x : field * option N) : res werr (list N) := w_field (fst x) (snd x).
Definition t_scope_lens (t : option tmpl) : list N := match t with None => [] | Some t => map fs_len (t_scope t) end.
Definition t_field_lens (t : option tmpl) : list N := match t with None => [] | Some t => map fs_len (t_fields t) end.
Definition drec_len (t : option tmpl) (r : drec) : N :=
  nsum (map flen (with_lens (dr_scope r) (t_scope_lens t)))
  + nsum (map flen (with_lens (dr_fields r) (t_field_lens t))).
Definition w_drec (t : option tmpl) (r : drec) : res werr (list N) :=
  rbind (wmapm wfield (with_lens (dr_scope r) (t_scope_lens t))) (fun a =>
  rbind (wmapm wfield (with_lens (dr_fields r) (t_field_lens t))) (fun b => Ok (a ++ b))).
(* ipfix.rs:246-265 calculate_set_size *)
Definition iset_len (m : tmap) (s : iset) : N :=
  4 + match s with
      | STemplate l => nsum (map trec_len l)
      | SOptions l => nsum (map otrec_len l)
      | SData id l => nsum (map (drec_len (tget id m)) l)
      end.
(* ipfix.rs:300-339 write_with_len *)
Definition w_iset (m : tmap) (s : iset) : res werr (list N) :=
  let len := be_enc 2 (as_u16 (iset_len m s)) in
  match s with
  | STemplate l => Ok (be_enc 2 2 ++ len ++ flat_map w_trec l)
  | SOptions l => Ok (be_enc 2 3 ++ len ++ flat_map w_otrec l)
  | SData id l => rbind (wmapm (w_drec (tget id m)) l) (fun b => Ok (be_enc 2 id ++ len ++ b))
  end.
(* ipfix.rs:33-71 *)
Definition ipkt_len (m : tmap) (p : ipkt) : N := 16 + nsum (map (iset_len m) (ip_sets p)).
Definition w_ipkt (m : tmap) (p : ipkt) : res werr (list N) :=
  rbind (wmapm (w_iset m) (ip_sets p)) (fun b =>
  Ok (be_enc 2 10 ++ be_enc 2 (as_u16 (ipkt_len m p)) ++ be_enc 4 (ip_time p)
      ++ be_enc 4 (ip_seq p) ++ be_enc 4 (ip_domain p) ++ b)).

(* --- reading NetFlow v9 --- *)
(* wire/deserializer/netflow.rs:368-387 ScopeFieldSpecifier::parse *)
Definition p_nspec : parser ferr nspec :=
  do code <- lift read_u16;;
  do len <- lift read_u16;;
  do pen <- (if N.land code 32768 =? 0 then ret 0 else lift read_u32);;
  let ie := scope_ie_of pen code in
  if in_range (scope_range ie) len then ret (mkNS ie len)
  else fail (FE_SpecLength pen code len).
(* netflow.rs:443-474 ScopeField::parse *)
Definition p_reduced32 (len : N) : parser ferr N :=
  if 4 <? len then fail (FE_FieldLength len)
  else do v <- lift (read_unsigned64_be len);; ret (as_u32 v).
Definition p_nscope (s : nspec) : parser ferr nscope :=
  match ns_ie s with
  | IeUnknown pen id => do b <- lift (read_bytes (ns_len s));; ret (NUnknown pen id b)
  | IeSystem => do v <- p_reduced32 (ns_len s);; ret (NSystem v)
  | IeInterface => do v <- p_reduced32 (ns_len s);; ret (NInterface v)
  | IeLineCard => do v <- p_reduced32 (ns_len s);; ret (NLineCard v)
  | IeCache => do b <- lift (read_bytes (ns_len s));; ret (NCache b)
  | IeTemplate => do b <- lift (read_bytes (ns_len s));; ret (NTemplate b)
  end.
(* netflow.rs:324-352 TemplateRecord::parse *)
Definition p_ntrec : sparser ntmap trec :=
  sdo id <- plift (peek_be 2);;
  if id <? 256 then sfail (FE_TemplateId id) else
  sdo_ plift read_u16;;
  sdo n <- plift read_u16;;
  sdo fs <- slift (ptimes (N.to_nat n) p_fspec);;
  sdo_ smod (nset_ id (mkNT [] fs 0));;
  sret (mkTR id fs).
(* netflow.rs:265-309 OptionsTemplateRecord::parse *)
Definition p_notrec : sparser ntmap notrec :=
  sdo id <- plift (peek_be 2);;
  if id <? 256 then sfail (FE_TemplateId id) else
  sdo_ plift read_u16;;
  sdo slen <- plift read_u16;;
  sdo olen <- plift read_u16;;
  sdo sbuf <- plift (take_slice slen);;
  sdo obuf <- plift (take_slice olen);;
  sdo ss <- slift (on_sub sbuf (many_all p_nspec));;
  sdo fs <- slift (on_sub obuf (many_all p_fspec));;
  sdo_ smod (nset_ id (mkNT ss fs 0));;
  sret (mkNO id ss fs).
(* netflow.rs:405-435 DataRecord::parse *)
Definition p_ndrec (t : ntmpl) : parser ferr ndrec :=
  do ss <- pmapm p_nscope (nt_scope t);;
  do fs <- pmapm p_spec_field (nt_fields t);;
  ret (mkND ss fs).
Definition n_record_len (t : ntmpl) : N := nsum (map ns_len (nt_scope t)) + nsum (map fs_len (nt_fields t)).
Definition nincr (id : N) (m : ntmap) : ntmap :=
  match nget id m with Some t => nset_ id (mkNT (nt_scope t) (nt_fields t) (u64_incr (nt_count t))) m | None => m end.
(* netflow.rs:143-234 Set::parse *)
Definition p_nset : sparser ntmap nset :=
  sdo id <- plift (peek_be 2);;
  if negb (id =? 0) && negb (id =? 1) && (id <? 256) then sfail (FE_SetId id) else
  sdo_ plift read_u16;;
  sdo len <- plift (peek_be 2);;
  if len <? 4 then sfail (FE_SetLength len) else
  sdo_ plift read_u16;;
  sdo sub <- plift (take_slice (len - 4));;
  if id =? 0 then
    sdo l <- son_sub sub (swhile_all (fun r => negb (ris_empty r)) p_ntrec);; sret (NSTemplate l)
  else if id =? 1 then
    sdo l <- son_sub sub (sdo l <- swhile_all (fun r => 3 <? remaining r) p_notrec;;
                          sdo_ slift p_padding;; sret l);;
    sret (NSOptions l)
  else
    sdo m <- sget;;
    match nget id m with
    | None => sfail (FE_NoTemplate id)
    | Some t =>
      let rl := n_record_len t in
      sdo l <- son_sub sub (
        sdo l <- (if rl =? 0 then sret []
                  else swhile_all (fun r => rl <=? remaining r)
                         (sdo x <- slift (p_ndrec t);; sdo_ smod (nincr id);; sret x));;
        sdo_ slift p_padding;; sret l);;
      sret (NSData id l)
    end.
(* netflow.rs:91-105 the loop over the sets: i is the count still expected *)
Definition nset_takes (s : nset) : N := match s with NSData _ l => blen l | _ => 1 end.
Fixpoint p_nsets (fuel : nat) (count i : N) : sparser ntmap (list nset) :=
  fun m r =>
    if (0 <? i) && (3 <? remaining r) then
      match fuel with
      | O => (m, r, Diverge)
      | S f => (sdo s <- p_nset;;
                if i <? nset_takes s then sfail (FE_Count count) else
                sdo l <- p_nsets f count (i - nset_takes s);; sret (s :: l)) m r
      end
    else (m, r, Ok []).
(* netflow.rs:56-113 NetFlowV9Packet::parse *)
Definition p_npkt : sparser ntmap npkt :=
  sdo v <- plift (peek_be 2);;
  if negb (v =? 9) then sfail (FE_Version v) else
  sdo_ plift read_u16;;
  sdo count <- plift read_u16;;
  sdo up <- plift read_u32;;
  sdo time <- plift read_u32;;
  sdo seq <- plift read_u32;;
  sdo src <- plift read_u32;;
  sdo sets <- (fun m r => p_nsets (S (length (rbuf r))) count count m r);;
  sret (mkNP up time seq src sets).

(* --- writing NetFlow v9 --- *)
(* wire/serializer/netflow.rs:365-386 *)
Definition nspec_len (s : nspec) : N := 4 + (if scope_ie_pen (ns_ie s) =? 0 then 0 else 4).
Definition w_nspec (s : nspec) : list N :=
  be_enc 2 (scope_ie_id (ns_ie s)) ++ be_enc 2 (ns_len s)
  ++ (if scope_ie_pen (ns_ie s) =? 0 then [] else be_enc 4 (scope_ie_pen (ns_ie s))).
(* netflow.rs:235-277 *)
Definition notrec_len (r : notrec) : N :=
  6 + nsum (map nspec_len (no_scope r)) + nsum (map fspec_len (no_fields r)).
Definition w_notrec (r : notrec) : list N :=
  be_enc 2 (no_id r) ++ be_enc 2 (as_u16 (nsum (map nspec_len (no_scope r))))
  ++ be_enc 2 (as_u16 (nsum (map fspec_len (no_fields r))))
  ++ flat_map w_nspec (no_scope r) ++ flat_map w_fspec (no_fields r).
(* netflow.rs:410-495 ScopeField::len and write *)
Definition nscope_len (s : nscope) (len : option N) : N :=
  match s with
  | NSystem _ | NInterface _ | NLineCard _ => opt_len len 4
  | NCache b | NTemplate b | NUnknown _ _ b => blen b
  end.
Definition w_nscope (x : nscope * option N) : res werr (list N) :=
  match fst x with
  | NSystem v | NInterface v | NLineCard v => w_reduced 4 v (snd x)
  | NCache b | NTemplate b | NUnknown _ _ b => Ok b
  end.
(* netflow.rs:291-356 DataRecord::len and write *)
Definition ndrec_len (t : option ntmpl) (r : ndrec) : N :=
  match t with
  | Some t => n_record_len t
  | None => nsum (map (fun s => nscope_len s None) (nd_scope r))
            + nsum (map (fun f => field_len f None) (nd_fields r))
  end.
Definition nt_scope_lens (t : option ntmpl) : list N := match t with None => [] | Some t => map ns_len (nt_scope t) end.
Definition nt_field_lens (t : option ntmpl) : list N := match t with None => [] | Some t => map fs_len (nt_fields t) end.
Definition w_ndrec (t : option ntmpl) (r : ndrec) : res werr (list N) :=
  rbind (wmapm w_nscope (with_lens (nd_scope r) (nt_scope_lens t))) (fun a =>
  rbind (wmapm wfield (with_lens (nd_fields r) (nt_field_lens t))) (fun b => Ok (a ++ b))).
(* netflow.rs:111-134 calculate_set_size_with_padding *)
Definition nset_size (m : ntmap) (s : nset) : N :=
  4 + match s with
      | NSTemplate l => nsum (map trec_len l)
      | NSOptions l => nsum (map notrec_len l)
      | NSData id l => nsum (map (ndrec_len (nget id m)) l)
      end.
Definition nset_padding (align : bool) (size : N) : N := if align then size mod 4 else 0.
(* netflow.rs:136-188 Set::len and write *)
Definition nset_len (m : ntmap) (align : bool) (s : nset) : N :=
  nset_size m s + nset_padding align (nset_size m s).
Definition w_nset (m : ntmap) (align : bool) (s : nset) : res werr (list N) :=
  let len := be_enc 2 (as_u16 (nset_len m align s)) in
  let pad := repeat 0 (N.to_nat (nset_padding align (nset_size m s))) in
  match s with
  | NSTemplate l => Ok (be_enc 2 0 ++ len ++ flat_map w_trec l ++ pad)
  | NSOptions l => Ok (be_enc 2 1 ++ len ++ flat_map w_notrec l ++ pad)
  | NSData id l => rbind (wmapm (w_ndrec (nget id m)) l) (fun b => Ok (be_enc 2 id ++ len ++ b ++ pad))
  end.
(* netflow.rs:38-78 *)
Definition nset_records (s : nset) : N :=
  match s with NSTemplate l => blen l | NSOptions l => blen l | NSData _ l => blen l end.
Definition npkt_len (m : ntmap) (align : bool) (p : npkt) : N :=
  20 + nsum (map (nset_len m align) (np_sets p)).
Definition w_npkt (m : ntmap) (align : bool) (p : npkt) : res werr (list N) :=
  rbind (wmapm (w_nset m align) (np_sets p)) (fun b =>
  Ok (be_enc 2 9 ++ be_enc 2 (as_u16 (nsum (map nset_records (np_sets p))))
      ++ be_enc 4 (np_uptime p) ++ be_enc 4 (np_time p) ++ be_enc 4 (np_seq p)
      ++ be_enc 4 (np_source p) ++ b)).

(* ------------------------------ codec ------------------------------ *)
(* codec.rs:68-88 FlowInfoCodec *)
Record codec : Type := mkC { c_netflow : ntmap; c_ipfix : tmap }.
Definition codec_new : codec := mkC [] [].
Inductive flow_info : Type := Ipfix (p : ipkt) | NetFlow (p : npkt).
Inductive decoded : Type :=
| NeedMore | Packet (p : flow_info) | Rejected (e : ferr) | DPanic | DDiverge.
(* codec.rs:151-172 parse_ipfix; BytesMut::advance panics beyond the length *)
Definition decode_ipfix (c : codec) (buf : list N) (len : N) : codec * list N * decoded :=
  match p_ipkt (c_ipfix c) (rnew buf) with
  | (m, r, Ok p) => (mkC (c_netflow c) m, drop (roff r) buf, Packet (Ipfix p))
  | (m, r, Err e) =>
    let n := if len <? 5 then 5 else len in
    if blen buf <? n then (mkC (c_netflow c) m, buf, DPanic)
    else (mkC (c_netflow c) m, drop n buf, Rejected e)
  | (m, _, Panic) => (mkC (c_netflow c) m, buf, DPanic)
  | (m, _, Diverge) => (mkC (c_netflow c) m, buf, DDiverge)
  end.
(* codec.rs:174-196 parse_netflow_v9 *)
Definition decode_netflow (c : codec) (buf : list N) : codec * list N * decoded :=
  match p_npkt (c_netflow c) (rnew buf) with
  | (m, r, Ok p) => (mkC m (c_ipfix c), drop (roff r) buf, Packet (NetFlow p))
  | (m, _, Err e) => (mkC m (c_ipfix c), [], Rejected e)
  | (m, _, Panic) => (mkC m (c_ipfix c), buf, DPanic)
  | (m, _, Diverge) => (mkC m (c_ipfix c), buf, DDiverge)
  end.
(* codec.rs:198-230 decode *)
Definition decode (c : codec) (buf : list N) : codec * list N * decoded :=
  if blen buf <? 16 then (c, buf, NeedMore) else
  let version := be_val (take 2 buf) in
  let len := be_val (take 2 (drop 2 buf)) in
  if blen buf <? len then (c, buf, NeedMore) else
  if version =? 10 then decode_ipfix c buf len
  else if version =? 9 then decode_netflow c buf
  else (c, [], Rejected (FE_Version version)).
(* codec.rs:109-150 encode; the codec is not changed *)
Definition encode (c : codec) (p : flow_info) : res werr (list N) :=
  match p with
  | Ipfix p => w_ipkt (c_ipfix c) p
  | NetFlow p => w_npkt (c_netflow c) false p
  end.
End Packets.
