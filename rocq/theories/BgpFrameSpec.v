(* What a framed BGP message is (RFC 4271 section 4.1), independent of the
   decoder. *)
From Verif Require Import Base FramingModel BgpFrameModel.

(* 16 octets of ones, the two-octet length, the type octet, the body; [rest]
   are the bytes after the message. *)
Definition framed (t : mtype) (body rest : list N) : list N :=
  let len := 19 + blen body in
  repeat 255 16 ++ [len / 256; len mod 256; mtype_code t] ++ body ++ rest.
(* OPEN and KEEPALIVE are limited to 4096 octets, everything to 65535. *)
Definition length_allowed (t : mtype) (body : list N) : Prop :=
  19 + blen body <= 65535 /\
  match t with TOpen | TKeepAlive => 19 + blen body <= 4096 | _ => True end.

(* The length field of a buffer that starts with a BGP header. *)
Definition length_field (b : list N) : N := nth 16 b 0 * 256 + nth 17 b 0.

(* A body parser accepts exactly [b]. *)
Definition body_accepts {C E M} (p : cparser C E M) (c : C) (b : list N) (c' : C) (m : M) : Prop :=
  exists r, p c (mkR b 19) = (c', r, Ok m) /\ rbuf r = [].

(* A body parser neither panics nor runs forever. *)
Definition body_total {C E M} (body : mtype -> cparser C E M) : Prop :=
  forall t c r, match snd (body t c r) with Panic | Diverge => False | _ => True end.
