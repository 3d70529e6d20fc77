(* Vocabulary for the properties of file based enrichment. *)
From Verif Require Import Base MapLib EnModel EnSpec FiModel.
From Coq Require Import Permutation String.

(* ---- text ---- *)
(* Unicode White_Space *)
Definition space (c : N) : Prop :=
  9 <= c <= 13 \/ c = 32 \/ c = 133 \/ c = 160 \/ c = 5760 \/ 8192 <= c <= 8202 \/ c = 8232 \/ c = 8233 \/ c = 8239 \/ c = 8287 \/ c = 12288.
Definition blank (t : text) : Prop := Forall space t.
(* raw, stripped of surrounding white space, is l *)
Definition stripped (raw l : text) : Prop :=
  exists u v, raw = u ++ l ++ v /\ blank u /\ blank v /\
  (forall c l', l = c :: l' -> ~ space c) /\ (forall c l', l = l' ++ [c] -> ~ space c).
(* raw is what stands between two line ends of t *)
Definition raw_line (t raw : text) : Prop :=
  exists a b, t = a ++ raw ++ b /\ ~ In 10 raw /\ (a = [] \/ exists a', a = a' ++ [10]) /\ (b = [] \/ exists b', b = 10 :: b').
Definition is_comment (l : text) : Prop :=
  exists l', l = str "#" ++ l' \/ l = str "//" ++ l' \/ l = str "!" ++ l'.
(* the lines a file holds: not blank, no comments, without surrounding space *)
Definition holds_line (t l : text) : Prop :=
  l <> [] /\ ~ is_comment l /\ exists raw, raw_line t raw /\ stripped raw l.
(* decimal numerals *)
Definition digit (c : N) : Prop := 48 <= c <= 57.
Definition dec_value (ds : text) : N := fold_left (fun a c => a * 10 + (c - 48)) ds 0.
Definition numeral (t : text) (n : N) : Prop :=
  exists ds, (t = ds \/ t = str "+" ++ ds) /\ ds <> [] /\ Forall digit ds /\ dec_value ds = n.
(* t is the parts, in order, with sep between them and not in them *)
Fixpoint joined (sep : N) (parts : list text) : text :=
  match parts with [] => [] | [p] => p | p :: ps => p ++ sep :: joined sep ps end.
Definition without (sep : N) (parts : list text) : Prop := Forall (fun p => ~ In sep p) parts.
Definition octet_text (t : text) (n : N) : Prop :=
  t <> [] /\ Forall digit t /\ dec_value t = n /\ n < 256 /\ (hd 0 t = 48 -> t = str "0").
Definition dotted (t : text) (a b c d : N) : Prop :=
  exists ta tb tc td, t = joined 46 [ta; tb; tc; td] /\ octet_text ta a /\ octet_text tb b /\ octet_text tc c /\ octet_text td d.

(* a route distinguisher as a number of eight octets: type, administrator,
   assigned number *)
Definition rd_said (t : text) (v : N) : Prop :=
  exists p0 p1 p2, t = joined 58 [p0; p1; p2] /\ without 58 [p0; p1; p2] /\
  ((exists a n, numeral p0 0 /\ numeral p1 a /\ a < 65536 /\ numeral p2 n /\ n < 4294967296 /\ v = a * 4294967296 + n) \/
   (exists a b c d n, numeral p0 1 /\ dotted p1 a b c d /\ numeral p2 n /\ n < 65536 /\
      v = 1 * 281474976710656 + (a * 16777216 + b * 65536 + c * 256 + d) * 65536 + n) \/
   (exists a n, numeral p0 2 /\ numeral p1 a /\ a < 4294967296 /\ numeral p2 n /\ n < 65536 /\
      v = 2 * 281474976710656 + a * 65536 + n)).
(* t spells type k, administrator a and assigned number n *)
Definition rd_form (t : text) (k a n : N) : Prop :=
  exists p0 p1 p2, t = joined 58 [p0; p1; p2] /\ without 58 [p0; p1; p2] /\ numeral p0 k /\ numeral p2 n /\
  ((k <> 1 /\ numeral p1 a) \/ (k = 1 /\ exists b c d e, dotted p1 b c d e /\ a = b * 16777216 + c * 65536 + d * 256 + e)).
(* the value of an id for an information element: mplsVpnRouteDistinguisher
   (90) or samplerRandomInterval (50) *)
Definition identifier (ie : N) (t : text) (v : N) : Prop :=
  (ie = 90 /\ rd_said t v) \/ (ie = 50 /\ numeral t v /\ v < 4294967296).
(* elements 14 and 15 of the NetGauze registry *)
Definition ingress_rd : N := 245497870.
Definition egress_rd : N := 245497871.

(* ---- pmacct lines ---- *)
(* ws are the words of l *)
Inductive words : text -> list text -> Prop :=
  | W_nil t : blank t -> words t []
  | W_cons u w t ws : blank u -> w <> [] -> Forall (fun c => ~ space c) w ->
      (t = [] \/ exists c t', t = c :: t' /\ space c) -> words t ws -> words (u ++ w ++ t) (w :: ws).
Definition assignment (k v : text) : text := k ++ 61 :: v.
(* the last word that assigns to k assigns v *)
Definition last_is (k : text) (ws : list text) (v : text) : Prop :=
  exists l1 l2, ws = l1 ++ assignment k v :: l2 /\ forall v', ~ In (assignment k v') l2.
Definition never_set (k : text) (ws : list text) : Prop := forall v, ~ In (assignment k v) ws.
(* what an interface or VPN key says *)
Definition number_said (k : text) (ws : list text) (o : option N) : Prop :=
  match o with
  | Some i => exists v, last_is k ws v /\ numeral v i /\ i < 4294967296
  | None => never_set k ws
  end.
Definition scope_numbers (sc : option pscope) : option N * option N * option N :=
  match sc with
  | Some (PIn i) => (Some i, None, None) | Some (POut i) => (None, Some i, None)
  | Some (PVpn i) => (None, None, Some i) | None => (None, None, None)
  end.
Section Env.
Variable parse_v6 : text -> option N.
Variable parse_json : text -> option payload.
(* address t reads as a *)
Definition address (t : text) (a : N) : Prop :=
  (exists b c d e, dotted t b c d e /\ a = b * 16777216 + c * 65536 + d * 256 + e) \/
  ((forall b c d e, ~ dotted t b c d e) /\ exists n, parse_v6 t = Some n /\ a = 4294967296 + n).
(* every assignment is to a known key and has a value of its type *)
Definition word_fine (w : text) : Prop :=
  ~ In 61 w \/
  exists k v, w = assignment k v /\ ~ In 61 k /\
  (k = str "id" \/ (k = str "ip" /\ exists a, address v a) \/
   ((k = str "in" \/ k = str "out" \/ k = str "mpls_vpn_id") /\ exists i, numeral v i /\ i < 4294967296)).
(* the entry a line describes *)
Definition describes (l : text) (e : pentry) : Prop :=
  exists ws, words l ws /\ (forall w ws', ws = (str "!" ++ w) :: ws' -> False) /\ (forall w ws', ws = (str "#" ++ w) :: ws' -> False) /\
  Forall word_fine ws /\ last_is (str "id") ws (e_id e) /\
  (exists v, last_is (str "ip") ws v /\ address v (e_ip e)) /\
  let '(i, o, m) := scope_numbers (e_scope e) in
  number_said (str "in") ws i /\ number_said (str "out") ws o /\ number_said (str "mpls_vpn_id") ws m.

(* ---- what the files say ---- *)
(* a line of a file of format fmt provides these fields for that scope: a JSON
   line what it holds; a pmacct line its identifier for the interface or for
   both directions of the VPN, or for all records of the exporter. A route
   distinguisher given for a direction is one of that direction. *)
Definition provides (fmt : format) (l : text) (ip dom : N) (scope : list field) (w : N) (fs : list field) : Prop :=
  match fmt with
  | FlowUpserts => fs <> [] /\ parse_json l = Some (mkPayload ip dom scope w fs)
  | YangPushUpserts => False
  | PmacctMaps ie weight =>
    exists e v, describes l e /\ identifier ie (e_id e) v /\ ip = e_ip e /\ dom = 0 /\ w = weight /\
    match e_scope e with
    | None => scope = [] /\ fs = [(ie, v)]
    | Some (PIn i) => scope = [(10, i)] /\ fs = [(if ie =? 90 then ingress_rd else ie, v)]
    | Some (POut i) => scope = [(14, i)] /\ fs = [(if ie =? 90 then egress_rd else ie, v)]
    | Some (PVpn i) => (scope = [(234, i)] /\ fs = [(if ie =? 90 then ingress_rd else ie, v)]) \/
                       (scope = [(235, i)] /\ fs = [(if ie =? 90 then egress_rd else ie, v)])
    end
  end.
(* what a file holds after some events *)
Fixpoint content_after (d : disk) (p : N) (vs : list event) : disk :=
  match vs with
  | [] => d
  | v :: vs' =>
    content_after (if v_path v =? p then match v_kind v with Changed => v_disk v | Gone => Missing | Other => d end else d) p vs'
  end.
Definition says (cfg : list (N * format)) (files : N -> disk) (p : N) (l : text) (ip dom : N) (scope : list field) (w : N) (fs : list field) : Prop :=
  exists fmt t, In (p, fmt) cfg /\ files p = Text t /\ holds_line t l /\ provides fmt l ip dom scope w fs.
Definition said (cfg : list (N * format)) (files : N -> disk) (a : N * text * payload) : Prop :=
  let '(p, l, y) := a in says cfg files p l (p_ip y) (p_dom y) (p_scope y) (p_weight y) (p_fields y).
(* no two lines speak of the same element of the same scope *)
Definition unambiguous (cfg : list (N * format)) (files : N -> disk) : Prop :=
  forall p l ip dom scope w fs p' l' w' fs' ie,
    says cfg files p l ip dom scope w fs -> says cfg files p' l' ip dom scope w' fs' ->
    In ie (map ie_of fs) -> In ie (map ie_of fs') -> p' = p /\ l' = l /\ w' = w /\ fs' = fs.
Definition walks_all (order : list text -> list text) : Prop := forall ls, Permutation (order ls) ls.
(* every configured file lies in a directory with one that exists at start *)
Definition all_watched (parent : N -> N) (cfg : list (N * format)) (disk0 : N -> disk) : Prop :=
  forall p fmt, In (p, fmt) cfg -> exists p' fmt', In (p', fmt') cfg /\ parent p' = parent p /\ disk0 p' <> Missing.
(* the fields a cache holds are those the files provide *)
Definition agrees (cfg : list (N * format)) (files : N -> disk) (c : cache) : Prop :=
  forall ip dom scope r w f,
    stored c ip dom scope r = Some (w, f) <->
    exists p l fs, says cfg files p l ip dom scope w fs /\ occurrence fs r = Some f.
End Env.
