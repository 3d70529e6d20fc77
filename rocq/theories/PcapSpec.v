(* Specification vocabulary for captures and VLAN tags (C40, C62). *)
From Verif Require Import Base PcapModel.

(* A frame behind a stack of VLAN tags, outermost first. A tag is its TPID
   and the two octets of tag control information; the frame inside is an
   EtherType and its payload. *)
Definition vlan_tag : Type := N * (N * N).
Fixpoint tagged (tags : list vlan_tag) (et : N) (payload : list N) : N * list N :=
  match tags with
  | [] => (et, payload)
  | (tpid, (a, b)) :: ts =>
      let inner := tagged ts et payload in
      (tpid, [a; b; fst inner / 256; fst inner mod 256] ++ snd inner)
  end.
Definition vlan_tpid (t : N) : Prop := t = 33024 \/ t = 34984 \/ t = 37120.

Section Reading.
Context {D P : Type} (dissect : N -> D -> res unit (option P)).
(* What a capture holds: each packet with the link type of the interface it
   was captured on. Interface numbers count the interface descriptions since
   the last section header (pcapng, draft-ietf-opsawg-pcapng 4.1-4.3). *)
Fixpoint packets (links : list N) (bs : list (block D)) : list (option N * D) :=
  match bs with
  | [] => []
  | Legacy d :: bs' => (nth_error links 0, d) :: packets links bs'
  | EnhancedPacket i d :: bs' => (nth_error links (N.to_nat i), d) :: packets links bs'
  | SimplePacket d :: bs' => (nth_error links 0, d) :: packets links bs'
  | LegacyHeader n :: bs' => packets (links ++ [n]) bs'
  | InterfaceDescription n :: bs' => packets (links ++ [n]) bs'
  | SectionHeader :: bs' => packets [] bs'
  | OtherBlock :: bs' => packets links bs'
  end.
Definition extracted (x : option N * D) : list P :=
  match x with
  | (Some lt, d) => match dissect lt d with Ok (Some p) => [p] | _ => [] end
  | (None, _) => []
  end.
(* No simple packets, one section, every interface described before use, and
   the dissector does not panic. *)
Fixpoint plain (n : nat) (bs : list (block D)) : Prop :=
  match bs with
  | [] => True
  | Legacy _ :: bs' => (0 < n)%nat /\ plain n bs'
  | EnhancedPacket i _ :: bs' => (N.to_nat i < n)%nat /\ plain n bs'
  | SimplePacket _ :: _ => False
  | LegacyHeader _ :: bs' | InterfaceDescription _ :: bs' => plain (S n) bs'
  | SectionHeader :: bs' => n = 0%nat /\ plain n bs'
  | OtherBlock :: bs' => plain n bs'
  end.
Definition calm : Prop := forall lt d, exists r, dissect lt d = Ok r.
End Reading.
