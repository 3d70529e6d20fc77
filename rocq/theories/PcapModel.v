(* crates/pcap-reader/src/lib.rs. The file format parser (pcap-parser) and
   the packet dissector (pdu) are dependencies and not modelled: a capture is
   the sequence of blocks the parser hands out, and dissecting one packet is a
   parameter. *)
From Verif Require Import Base.

(* lib.rs:71-84 ether_type *)
Definition ET_VLAN : N := 33024.            (* 0x8100 *)
Definition ET_QINQ : N := 34984.            (* 0x88A8 *)
Definition ET_LEGACY_QINQ : N := 37120.     (* 0x9100 *)
Definition is_vlan (et : N) : bool := (et =? ET_VLAN) || (et =? ET_QINQ) || (et =? ET_LEGACY_QINQ).
(* lib.rs:90,95 *)
Definition vlan_remainder : N := 4.
Definition max_vlan_tags : nat := 4.

(* slice[i]: panics out of range *)
Definition index (l : list N) (i : N) : option N := nth_error l (N.to_nat i).

(* lib.rs:105-117 strip_vlan_tags; `for _ in 0..=MAX_VLAN_TAGS` is [rounds] =
   MAX_VLAN_TAGS + 1. Ok None is None; Panic an index out of range. *)
Fixpoint strip_loop (rounds : nat) (et : N) (payload : list N) : res unit (option (N * list N)) :=
  match rounds with
  | O => Ok None
  | S k =>
      if negb (is_vlan et) then Ok (Some (et, payload))
      else if blen payload <? vlan_remainder then Ok None
      else match index payload 2, index payload 3 with
           | Some a, Some b =>
               if blen payload <? vlan_remainder then Panic
               else strip_loop k (be_val [a; b]) (drop vlan_remainder payload)
           | _, _ => Panic
           end
  end.
Definition strip_vlan_tags (et : N) (payload : list N) := strip_loop (S max_vlan_tags) et payload.

(* Blocks handed out by the capture reader (pcap_parser::PcapBlockOwned). *)
Inductive block (D : Type) : Type :=
| LegacyHeader (network : N)
| Legacy (data : D)
| InterfaceDescription (linktype : N)
| EnhancedPacket (if_id : N) (data : D)
| SimplePacket (data : D)
| SectionHeader
| OtherBlock.
Arguments LegacyHeader {D} _.
Arguments Legacy {D} _.
Arguments InterfaceDescription {D} _.
Arguments EnhancedPacket {D} _ _.
Arguments SimplePacket {D} _.
Arguments SectionHeader {D}.
Arguments OtherBlock {D}.

(* lib.rs:120-124 PcapIter: link types, frame counter, blocks still to read *)
Record iter (D : Type) : Type := mkIter { it_links : list N; it_frames : N; it_blocks : list (block D) }.
Arguments mkIter {D} _ _ _.
Arguments it_links {D} _.
Arguments it_frames {D} _.
Arguments it_blocks {D} _.
Definition iter_new {D} (bs : list (block D)) : iter D := mkIter [] 0 bs.

Section Iter.
Context {D P : Type}.
(* get_packetdata and PcapIter::parse_packet (lib.rs:222-240) on one frame:
   link type and octets to an extracted datagram, if any. It may panic. *)
Variable dissect : N -> D -> res unit (option P).

(* lib.rs:144-218 next: reads blocks until a packet is extracted. Panic stands
   for an index out of range and for todo!(). *)
Fixpoint next_block (links : list N) (frames : N) (bs : list (block D)) : iter D * res unit (option P) :=
  match bs with
  | [] => (mkIter links frames [], Ok None)
  | b :: bs' =>
      let packet link data :=
        match link with
        | None => (mkIter links (frames + 1) bs, Panic)
        | Some lt =>
            match dissect lt data with
            | Ok (Some p) => (mkIter links (frames + 1) bs', Ok (Some p))
            | Ok None => next_block links (frames + 1) bs'
            | _ => (mkIter links (frames + 1) bs, Panic)
            end
        end in
      match b with
      | Legacy data => packet (index links 0) data
      | LegacyHeader n => next_block (links ++ [n]) frames bs'
      | InterfaceDescription n => next_block (links ++ [n]) frames bs'
      | EnhancedPacket i data => packet (index links i) data
      | SimplePacket _ => (mkIter links frames bs, Panic)
      | SectionHeader | OtherBlock => next_block links frames bs'
      end
  end.
Definition next (it : iter D) := next_block (it_links it) (it_frames it) (it_blocks it).
(* Iterator::collect; stops at the end or at a panic. The second component
   tells how it stopped (Ok: the end). *)
Fixpoint collect (fuel : nat) (it : iter D) : list P * iter D * res unit unit :=
  match fuel with
  | O => ([], it, Diverge)
  | S f =>
      match next it with
      | (it', Ok (Some p)) => match collect f it' with (ps, it2, r) => (p :: ps, it2, r) end
      | (it', Ok None) => ([], it', Ok tt)
      | (it', _) => ([], it', Panic)
      end
  end.
Definition read_capture (bs : list (block D)) := collect (S (length bs)) (iter_new bs).
End Iter.
