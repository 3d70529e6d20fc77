(* Enrichment from files: crates/collector/src/inputs/files/{processor.rs,
   handlers.rs, actor.rs, formats/pmacct_maps.rs}. The operations go to the
   cache of EnModel. Text is a list of character codes. Left out: log and
   error texts, counters and gauges, the poll interval, dropped events and
   operations lost after ten seconds of a full channel (actor.rs:293-326). *)
From Verif Require Import Base MapLib EnModel.
From Coq Require Import String Ascii.

Definition text : Type := list N.
Definition str (s : string) : text := map N_of_ascii (list_ascii_of_string s).
Definition text_eqb : text -> text -> bool := list_eqb N.eqb.

(* char::is_whitespace *)
Definition is_ws (c : N) : bool :=
  ((9 <=? c) && (c <=? 13)) || (c =? 32) || (c =? 133) || (c =? 160) || (c =? 5760) ||
  ((8192 <=? c) && (c <=? 8202)) || (c =? 8232) || (c =? 8233) || (c =? 8239) || (c =? 8287) || (c =? 12288).
(* str::trim *)
Fixpoint trim_start (t : text) : text :=
  match t with c :: t' => if is_ws c then trim_start t' else t | [] => [] end.
Definition trim (t : text) : text := rev (trim_start (rev (trim_start t))).
Fixpoint starts_with (p t : text) : bool :=
  match p, t with
  | [], _ => true
  | a :: p', b :: t' => (a =? b) && starts_with p' t'
  | _, _ => false
  end.
(* str::lines; the carriage return it also strips goes with trim *)
Fixpoint lines_from (cur t : text) : list text :=
  match t with
  | [] => match cur with [] => [] | _ => [rev cur] end
  | c :: t' => if c =? 10 then rev cur :: lines_from [] t' else lines_from (c :: cur) t'
  end.
(* str::split_whitespace *)
Fixpoint words_from (cur t : text) : list text :=
  match t with
  | [] => match cur with [] => [] | _ => [rev cur] end
  | c :: t' => if is_ws c then match cur with [] => words_from [] t' | _ => rev cur :: words_from [] t' end
               else words_from (c :: cur) t'
  end.
(* str::split_once, str::split *)
Fixpoint split_once (sep : N) (t : text) : option (text * text) :=
  match t with
  | [] => None
  | c :: t' => if c =? sep then Some ([], t') else match split_once sep t' with Some (a, b) => Some (c :: a, b) | None => None end
  end.
Fixpoint split_from (sep : N) (cur t : text) : list text :=
  match t with
  | [] => [rev cur]
  | c :: t' => if c =? sep then rev cur :: split_from sep [] t' else split_from sep (c :: cur) t'
  end.
(* u16/u32::from_str: an optional plus sign and decimal digits *)
Fixpoint digits_from (max acc : N) (t : text) : option N :=
  match t with
  | [] => Some acc
  | c :: t' =>
    if (48 <=? c) && (c <=? 57) then
      let acc' := acc * 10 + (c - 48) in if acc' <=? max then digits_from max acc' t' else None
    else None
  end.
Definition parse_uint (max : N) (t : text) : option N :=
  match t with
  | [] => None
  | c :: t' => if c =? 43 then match t' with [] => None | _ => digits_from max 0 t' end else digits_from max 0 t
  end.
(* Ipv4Addr::from_str: four decimal octets of one to three digits without
   leading zeros *)
Definition parse_octet (t : text) : option N :=
  match t with
  | [] => None
  | c :: t' => if (c =? 48) && negb (is_nil t') then None else if 3 <? blen t then None else digits_from 255 0 t
  end.
Definition parse_v4 (t : text) : option (list N) :=
  match split_from 46 [] t with
  | [a; b; c; d] =>
    match parse_octet a, parse_octet b, parse_octet c, parse_octet d with
    | Some a, Some b, Some c, Some d => Some [a; b; c; d]
    | _, _, _, _ => None
    end
  | _ => None
  end.

(* enrichment/mod.rs:106-120 UpsertPayload: address, observation domain, scope
   fields, weight, fields *)
Record payload : Type := mkPayload { p_ip : N; p_dom : N; p_scope : list field; p_weight : N; p_fields : list field }.
Definition upsert_op (p : payload) : op := Upsert (p_ip p) (p_dom p) (p_scope p) (p_weight p) (p_fields p).
(* mod.rs:171-180, payload into DeletePayload *)
Definition delete_op (p : payload) : op := Delete (p_ip p) (p_dom p) (p_scope p) (p_weight p) (map ie_of (p_fields p)).
(* files/mod.rs:76-79 LineChangeType *)
Inductive change : Type := Added | Removed.
Definition make_op (ch : change) (p : payload) : op := match ch with Added => upsert_op p | Removed => delete_op p end.

(* Information elements by number; those of the NetGauze registry
   (flow-pkt/registry/netgauze.xml:226,241) have the enterprise number 3746 in
   front *)
Definition IE_ingressInterface : N := 10.
Definition IE_egressInterface : N := 14.
Definition IE_samplerRandomInterval : N := 50.
Definition IE_mplsVpnRouteDistinguisher : N := 90.
Definition IE_ingressVRFID : N := 234.
Definition IE_egressVRFID : N := 235.
Definition IE_ingressMplsVpnRouteDistinguisher : N := 3746 * 65536 + 14.
Definition IE_egressMplsVpnRouteDistinguisher : N := 3746 * 65536 + 15.

(* pmacct_maps.rs:117-122 *)
Inductive pscope : Type := PIn (i : N) | POut (i : N) | PVpn (i : N).
(* pmacct_maps.rs:87-92 PmacctMapEntry; errors are None *)
Record pentry : Type := mkEntry { e_id : text; e_ip : N; e_scope : option pscope }.
Definition U16 : N := 65535.
Definition U32 : N := 4294967295.
(* pmacct_maps.rs:226-293; the octets as one number *)
Definition parse_rd (t : text) : option N :=
  match split_from 58 [] t with
  | [p0; p1; p2] =>
    match parse_uint U16 p0 with
    | Some 0 =>
      match parse_uint U16 p1, parse_uint U32 p2 with
      | Some a, Some b => Some (be_val (be_enc 2 0 ++ be_enc 2 a ++ be_enc 4 b))
      | _, _ => None
      end
    | Some 1 =>
      match parse_v4 p1, parse_uint U16 p2 with
      | Some a, Some b => Some (be_val (be_enc 2 1 ++ a ++ be_enc 2 b))
      | _, _ => None
      end
    | Some 2 =>
      match parse_uint U32 p1, parse_uint U16 p2 with
      | Some a, Some b => Some (be_val (be_enc 2 2 ++ be_enc 4 a ++ be_enc 2 b))
      | _, _ => None
      end
    | _ => None
    end
  | _ => None
  end.
(* pmacct_maps.rs:224-309 parse_field_from_string *)
Definition parse_field (ie : N) (t : text) : option field :=
  if ie =? IE_mplsVpnRouteDistinguisher then match parse_rd t with Some v => Some (ie, v) | None => None end
  else if ie =? IE_samplerRandomInterval then match parse_uint U32 t with Some v => Some (ie, v) | None => None end
  else None.
(* handlers.rs:285-386: a route distinguisher is attached as that of the
   direction of its scope *)
Definition directed (ie : N) (f : field) : field := if fst f =? IE_mplsVpnRouteDistinguisher then (ie, snd f) else f.
Definition entry_payloads (w : N) (ip : N) (f : field) (sc : option pscope) : list payload :=
  match sc with
  | Some (PIn i) => [mkPayload ip 0 [(IE_ingressInterface, i)] w [directed IE_ingressMplsVpnRouteDistinguisher f]]
  | Some (POut i) => [mkPayload ip 0 [(IE_egressInterface, i)] w [directed IE_egressMplsVpnRouteDistinguisher f]]
  | Some (PVpn i) => [mkPayload ip 0 [(IE_ingressVRFID, i)] w [directed IE_ingressMplsVpnRouteDistinguisher f];
                      mkPayload ip 0 [(IE_egressVRFID, i)] w [directed IE_egressMplsVpnRouteDistinguisher f]]
  | None => [mkPayload ip 0 [] w [f]]
  end.

(* files/mod.rs:60-74 InputFileFormat *)
Inductive format : Type := PmacctMaps (ie w : N) | FlowUpserts | YangPushUpserts.

(* a file as fs::read_to_string finds it; Path::exists holds unless Missing *)
Inductive disk : Type := Missing | Unreadable | Text (t : text).
Inductive ekind : Type := Changed | Gone | Other.
(* a notify event for one path, what the file then holds, and the order in
   which the hash sets of lines are walked *)
Record event : Type := mkEvent { v_kind : ekind; v_path : N; v_disk : disk; v_order : list text -> list text }.

(* FilesActor: watched_files, watched_directories, failing_files and the
   processor's hashed_lines *)
Record fstate : Type := mkF { f_watched : list (N * format); f_dirs : list N; f_failing : list N; f_lines : list (N * list text) }.
Definition files_new : fstate := mkF [] [] [] [].
Fixpoint dedup (l : list text) : list text :=
  match l with [] => [] | x :: l' => if existsb (text_eqb x) l' then dedup l' else x :: dedup l' end.
Definition insert_n (x : N) (l : list N) : list N := if existsb (N.eqb x) l then l else x :: l.

Section Env.
(* Ipv6Addr::from_str and serde_json::from_str of an UpsertPayload *)
Variable parse_v6 : text -> option N.
Variable parse_json : text -> option payload.

(* IpAddr::from_str: an IPv4 address is its number, an IPv6 address its number
   above those *)
Definition parse_ip (t : text) : option N :=
  match parse_v4 t with
  | Some a => Some (be_val a)
  | None => match parse_v6 t with Some a => Some (U32 + 1 + a) | None => None end
  end.
(* pmacct_maps.rs:139-182, the variables of the loop over words *)
Record vars : Type := mkVars { x_id : option text; x_ip : option N; x_in : option N; x_out : option N; x_vpn : option N }.
Definition parse_word (x : vars) (w : text) : option vars :=
  match split_once 61 w with
  | None => Some x
  | Some (k, v) =>
    if text_eqb k (str "id") then Some (mkVars (Some v) (x_ip x) (x_in x) (x_out x) (x_vpn x))
    else if text_eqb k (str "ip") then
      match parse_ip v with Some a => Some (mkVars (x_id x) (Some a) (x_in x) (x_out x) (x_vpn x)) | None => None end
    else if text_eqb k (str "in") then
      match parse_uint U32 v with Some i => Some (mkVars (x_id x) (x_ip x) (Some i) (x_out x) (x_vpn x)) | None => None end
    else if text_eqb k (str "out") then
      match parse_uint U32 v with Some i => Some (mkVars (x_id x) (x_ip x) (x_in x) (Some i) (x_vpn x)) | None => None end
    else if text_eqb k (str "mpls_vpn_id") then
      match parse_uint U32 v with Some i => Some (mkVars (x_id x) (x_ip x) (x_in x) (x_out x) (Some i)) | None => None end
    else None
  end.
Fixpoint parse_words (x : vars) (ws : list text) : option vars :=
  match ws with [] => Some x | w :: ws' => match parse_word x w with Some x' => parse_words x' ws' | None => None end end.
(* pmacct_maps.rs:131-206; Some None is an empty line or comment *)
Definition parse_line (l : text) : option (option pentry) :=
  let l := trim l in
  if is_nil l || starts_with (str "!") l || starts_with (str "#") l then Some None
  else match parse_words (mkVars None None None None None) (words_from [] l) with
       | None => None
       | Some x =>
         match x_id x, x_ip x with
         | Some id, Some ip =>
           match x_in x, x_out x, x_vpn x with
           | Some i, None, None => Some (Some (mkEntry id ip (Some (PIn i))))
           | None, Some i, None => Some (Some (mkEntry id ip (Some (POut i))))
           | None, None, Some i => Some (Some (mkEntry id ip (Some (PVpn i))))
           | None, None, None => Some (Some (mkEntry id ip None))
           | _, _, _ => None
           end
         | _, _ => None
         end
       end.
(* the payloads a line stands for, and handle_line: handlers.rs:56-91
   (FlowUpsertsHandler), 147-160 (YangPushUpsertsHandler, of no use here),
   199-237 (PmacctMapsHandler) *)
Definition line_payloads (fmt : format) (l : text) : option (list payload) :=
  match fmt with
  | FlowUpserts => match parse_json l with Some p => Some (if is_nil (p_fields p) then [] else [p]) | None => None end
  | YangPushUpserts => None
  | PmacctMaps ie w =>
    match parse_line l with
    | None => None
    | Some None => Some []
    | Some (Some e) => match parse_field ie (e_id e) with Some f => Some (entry_payloads w (e_ip e) f (e_scope e)) | None => None end
    end
  end.
Definition handle_line (fmt : format) (ch : change) (l : text) : option (list op) :=
  match line_payloads fmt l with Some ps => Some (map (make_op ch) ps) | None => None end.
(* the operations of some lines; a failing line only calls the error callback *)
Definition handle_lines (fmt : format) (ch : change) (ls : list text) : list op :=
  flat_map (fun l => match handle_line fmt ch l with Some ops => ops | None => [] end) ls.

(* processor.rs:78-84 *)
Definition comment (l : text) : bool := starts_with (str "#") l || starts_with (str "//") l || starts_with (str "!") l.
Definition file_lines (t : text) : list text := dedup (filter (fun l => negb (comment l)) (map trim (lines_from [] t))).
Definition difference (a b : list text) : list text := filter (fun l => negb (existsb (text_eqb l) b)) a.
(* processor.rs:60-136 process_file_changes, after the file was read *)
Definition process_text (fmt : format) (order : list text -> list text) (prev : option (list text)) (t : text) : list op * list text :=
  let ls := file_lines t in
  let added := match prev with Some old => difference ls old | None => ls end in
  let removed := match prev with Some old => difference old ls | None => [] end in
  (handle_lines fmt Removed (order removed) ++ handle_lines fmt Added (order added), ls).
(* processor.rs:141-168 purge_file *)
Definition purge (fmt : format) (order : list text -> list text) (p : N) (s : fstate) : fstate * list op :=
  (mkF (f_watched s) (f_dirs s) (f_failing s) (mrem N.eqb p (f_lines s)),
   match mget N.eqb p (f_lines s) with Some ls => handle_lines fmt Removed (order ls) | None => [] end).

(* actor.rs:336-401 handle_file_change; every format of a watched file has its
   handler (actor.rs:545-578) *)
Definition handle_change (order : list text -> list text) (p : N) (d : disk) (s : fstate) : fstate * list op :=
  match mget N.eqb p (f_watched s) with
  | None => (s, [])
  | Some fmt =>
    match d with
    | Text t =>
      let (ops, ls) := process_text fmt order (mget N.eqb p (f_lines s)) t in
      (mkF (f_watched s) (f_dirs s) (filter (fun q => negb (q =? p)) (f_failing s)) (mset N.eqb p ls (f_lines s)), ops)
    | _ => purge fmt order p (mkF (f_watched s) (f_dirs s) (insert_n p (f_failing s)) (f_lines s))
    end
  end.

(* directories; the watcher itself does not fail *)
Variable parent : N -> N.
(* actor.rs:190-226 add_file_to_watcher *)
Definition add_file (order : list text -> list text) (p : N) (fmt : format) (d : disk) (s : fstate) : fstate * list op :=
  match d with
  | Missing => (s, [])
  | _ => handle_change order p d (mkF (mset N.eqb p fmt (f_watched s)) (insert_n (parent p) (f_dirs s)) (f_failing s) (f_lines s))
  end.
(* actor.rs:415-483 handle_file_system_event *)
Definition handle_event (cfg : list (N * format)) (v : event) (s : fstate) : fstate * list op :=
  let p := v_path v in
  match mget N.eqb p cfg with
  | None => (s, [])
  | Some fmt =>
    match v_kind v with
    | Other => (s, [])
    | Changed =>
      if mhas N.eqb p (f_watched s) then handle_change (v_order v) p (v_disk v) s
      else add_file (v_order v) p fmt (v_disk v) s
    | Gone =>
      let (s', ops) := match mget N.eqb p (f_watched s) with Some fmt' => purge fmt' (v_order v) p s | None => (s, []) end in
      (mkF (f_watched s') (f_dirs s') (insert_n p (f_failing s')) (f_lines s'), ops)
    end
  end.
(* the watcher reports files of watched directories only *)
Definition world_step (cfg : list (N * format)) (s : fstate) (v : event) : fstate * list op :=
  if existsb (N.eqb (parent (v_path v))) (f_dirs s) then handle_event cfg v s else (s, []).
Fixpoint world_run (cfg : list (N * format)) (s : fstate) (vs : list event) : fstate * list op :=
  match vs with
  | [] => (s, [])
  | v :: vs' => let (s1, o1) := world_step cfg s v in let (s2, o2) := world_run cfg s1 vs' in (s2, o1 ++ o2)
  end.
(* actor.rs:233-290 setup_file_watcher: the configured files in turn *)
Fixpoint setup (order : list text -> list text) (disk0 : N -> disk) (cfg : list (N * format)) (s : fstate) : fstate * list op :=
  match cfg with
  | [] => (s, [])
  | (p, fmt) :: cfg' =>
    let (s1, o1) := add_file order p fmt (disk0 p) s in let (s2, o2) := setup order disk0 cfg' s1 in (s2, o1 ++ o2)
  end.
(* actor.rs:486-526 run: all operations sent *)
Definition files_run (cfg : list (N * format)) (order : list text -> list text) (disk0 : N -> disk) (vs : list event) : fstate * list op :=
  let (s1, o1) := setup order disk0 cfg files_new in let (s2, o2) := world_run cfg s1 vs in (s2, o1 ++ o2).
End Env.
