(* What an NLRI element means, independently of its codec: a prefix is the
   first [plen] bits of its address, and a value fits its family when every
   field is in range. *)
From Verif Require Import Base AfModel BgpNlriModel.

(* bit number i of an octet string, most significant bit of the first octet
   first (RFC 4271, section 4.3) *)
Definition bit_at (bs : list N) (i : N) : bool :=
  N.testbit (nth (N.to_nat (i / 8)) bs 0) (7 - i mod 8).

(* an address of w octets and a prefix length it can have *)
Definition net_wf (w : N) (n : net) : Prop :=
  blen (fst n) = w /\ bytes_ok (fst n) = true /\ snd n <= 8 * w.
(* no bit is set after the prefix *)
Definition no_host_bits (n : net) : Prop :=
  forall i, snd n <= i -> i < 8 * blen (fst n) -> bit_at (fst n) i = false.

Definition u16 (v : N) : Prop := v < 65536.
Definition u32 (v : N) : Prop := v < 4294967296.
Definition octets (k : N) (l : list N) : Prop := blen l = k /\ bytes_ok l = true.
Definition rd_fits (r : rd) : Prop :=
  match r with
  | RdAs2 a n => u16 a /\ u32 n
  | RdIp i n => u32 i /\ u16 n
  | RdAs4 a n => u32 a /\ u16 n
  | RdLeaf => True
  end.

(* A label stack a receiver that accepts at most [limit] labels reads back:
   three octets each; only the last label can carry the bottom-of-stack bit,
   and it does unless the stack is exactly as long as the limit (255 stands
   for "no limit"). *)
Definition stack_fits (limit : N) (ls : list label) : Prop :=
  Forall (octets 3) ls /\
  blen ls <= limit /\
  Forall (fun l => label_bottom l = false) (removelast ls) /\
  ((ls <> [] /\ label_bottom (last ls []) = true) \/ (blen ls = limit /\ limit < 255)).

Definition ip_fits (a : ipaddr) : Prop :=
  match a with V4 o => octets 4 o | V6 o => octets 16 o end.
Definition evpn_fits (e : evpn) : Prop :=
  match e with
  | EvAutoDiscovery r esi tag l => rd_fits r /\ octets 10 esi /\ u32 tag /\ octets 3 l
  | EvMacIp r esi tag mac ip l1 l2 =>
      rd_fits r /\ octets 10 esi /\ u32 tag /\ octets 6 mac /\
      (match ip with None => True | Some a => ip_fits a end) /\ octets 3 l1 /\
      (match l2 with None => True | Some l => octets 3 l end)
  | EvMulticast r tag ip => rd_fits r /\ u32 tag /\ ip_fits ip
  | EvSegment r esi ip => rd_fits r /\ octets 10 esi /\ ip_fits ip
  | EvPrefix4 r esi tag n gw l =>
      rd_fits r /\ octets 10 esi /\ u32 tag /\ (net_wf 4 n /\ no_host_bits n) /\ octets 4 gw /\ octets 3 l
  | EvPrefix6 r esi tag n gw l =>
      rd_fits r /\ octets 10 esi /\ u32 tag /\ (net_wf 16 n /\ no_host_bits n) /\ octets 16 gw /\ octets 3 l
  | EvUnknown code v => code < 256 /\ ~ In code [1; 2; 3; 4; 5] /\ blen v <= 255
  end.

(* the ADD-PATH identifier is present exactly when the peers agreed on it *)
Definition path_id_fits (ap : bool) (p : option N) : Prop :=
  match p with Some i => ap = true /\ u32 i | None => ap = false end.

(* [nlri_fits t ap limit x]: x is a value of family t, canonical, with an
   identifier iff [ap], and its label stack within [limit]. The labelled and
   VPN encodings count labels, distinguisher and prefix in one length octet;
   the bound here is 248 and not 255, see C48_long_label_refuted. *)
Definition nlri_fits (t : addr_type) (ap : bool) (limit : N) (x : nlri) : Prop :=
  match t, x with
  | (Ipv4Unicast | Ipv4Multicast | Ipv6Unicast | Ipv6Multicast), NPlain pid n =>
      path_id_fits ap pid /\ net_wf (family_width t) n /\ no_host_bits n /\ family_ok t n = true
  | (Ipv4NlriMplsLabels | Ipv6NlriMplsLabels), NLabelled pid ls n =>
      path_id_fits ap pid /\ stack_fits limit ls /\ net_wf (family_width t) n /\ no_host_bits n /\
      24 * blen ls + snd n <= 248
  | (Ipv4MplsLabeledVpn | Ipv6MplsLabeledVpn), NVpn pid r ls n =>
      path_id_fits ap pid /\ rd_fits r /\ stack_fits limit ls /\ net_wf (family_width t) n /\
      no_host_bits n /\ family_ok t n = true /\ 64 + 24 * blen ls + snd n <= 248
  | L2VpnBgpEvpn, NEvpn pid e => path_id_fits ap pid /\ evpn_fits e
  | RouteTargetConstrains, NRtm pid m =>
      path_id_fits ap pid /\
      (match m with None => True | Some (o, rt) => u32 o /\ blen rt <= 8 /\ bytes_ok rt = true end)
  | _, _ => False
  end.
(* the labelled-unicast families lose the identifier when written *)
Definition keeps_path_id (t : addr_type) (ap : bool) : Prop :=
  match t with Ipv4NlriMplsLabels | Ipv6NlriMplsLabels => ap = false | _ => True end.
