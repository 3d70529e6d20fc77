(* Capabilities that fit on the wire: every field in the range of its wire
   field and the value no longer than the length octet can say. *)
From Verif Require Import Base AfModel BgpCapModel.

(* Capability codes with a dedicated meaning (IANA capability codes that the
   library decodes into something else than an opaque value). *)
Definition dedicated_code (c : N) : Prop :=
  In c [1; 2; 5; 6; 8; 9; 64; 65; 69; 70; 71; 73; 128] \/ 239 <= c <= 254.

Definition cap_fits (c : cap) : Prop :=
  match c with
  | CMultiProtocol _ | CRouteRefresh | CEnhancedRouteRefresh | CCiscoRouteRefresh
  | CExtendedMessage => True
  | CGracefulRestart _ _ time fams => time < 4096 /\ 2 + 4 * blen fams <= 255
  | CLongLived fams => Forall (fun f => snd f < 16777216) fams /\ 7 * blen fams <= 255
  | CFqdn h d => utf8_ok h = true /\ utf8_ok d = true /\ 2 + blen h + blen d <= 255
  | CAddPath fams => 4 * blen fams <= 255
  | CMultipleLabels ls => Forall (fun l => snd l < 256) ls /\ 4 * blen ls <= 255
  | CRole r => r <= 4
  | CFourOctetAs a => a < 4294967296
  | CExtNextHop es => Forall (fun e => afi_ok (snd e) = true) es /\ 6 * blen es <= 255
  | CExperimental code v => 239 <= code <= 254 /\ blen v <= 255
  | CUnrecognized code v => code < 256 /\ ~ dedicated_code code /\ blen v <= 255
  end.
(* The multiple-labels capability is written without its length octet. *)
Definition not_multiple_labels (c : cap) : Prop :=
  match c with CMultipleLabels _ => False | _ => True end.
