(* What a client of a NETCONF session expects. *)
From Verif Require Import Base MapLib NsModel.

(* A fresh session over some input *)
Definition opened (input : list incoming) : sess := Sess 10110 None None input false [].

(* The peer's answers are right: a reply that names the id of a request we sent
   has the answer to that request. Replies may be missing, repeated, late, out
   of order or unasked for. *)
Definition honest (ans : op -> content) (input : list incoming) (sent : list (octets * op)) : Prop :=
  forall r i o, In (IReply r) input -> rp_id r = Some i -> In (i, o) sent -> rp_content r = ans o.
(* every reply names an id *)
Definition named (input : list incoming) : Prop := forall r, In (IReply r) input -> rp_id r <> None.

Section Want.
Variable filters_of : octets -> option filters.
Variable sub_of : octets -> option (subscription * bool).
Variable ans : op -> content.
Definition data_of (o : op) (r : response) : Prop := exists e, ans o = CData e r.
(* the filters the device has *)
Definition device_filters (f : filters) : Prop := exists d, data_of OFilters (RData d) /\ filters_of d = Some f.
(* what a successful call returned is what the device says *)
Definition right (k : call) (g : outcome) : Prop :=
  match k, g with
  | KSchema n v, GSchema t => data_of (OSchema n v) (RSchema t)
  | KLibrary, GLibrary l => data_of OLibrary (RLibrary l)
  | KFilters, GFilters f => device_filters f
  | KSub id, GSub x =>
      exists d y, data_of (OSub id) (RData d) /\ sub_of d = Some (y, true) /\ su_rest x = su_rest y /\
        match su_sel y with
        | SRef n => exists f, device_filters f /\
                      (forall v, mget N.eqb n f = Some v -> su_sel x = SValue v) /\
                      (mget N.eqb n f = None -> su_sel x = SRef n)
        | other => su_sel x = other
        end
  | KRpc _, GId _ | KReply, GReply _ | _, GFail _ => True
  | _, _ => False
  end.
End Want.

(* calls that are one request each, and the request *)
Definition asks (k : call) : option op :=
  match k with
  | KSchema n v => Some (OSchema n v)
  | KLibrary => Some OLibrary
  | KFilters => Some OFilters
  | _ => None
  end.
(* replies in order: the answers to the requests [os], the first of which has
   number [n] *)
Fixpoint in_order (number : N -> octets) (ans : op -> content) (n : N) (os : list op) : list incoming :=
  match os with
  | [] => []
  | o :: r => IReply (Reply (Some (number n)) (ans o)) :: in_order number ans (n + 1) r
  end.
Definition failed (g : outcome) : Prop := match g with GFail _ => True | _ => False end.
Definition is_library (o : op) : bool := match o with OLibrary => true | _ => false end.
Definition is_filters (o : op) : bool := match o with OFilters => true | _ => false end.
(* the device's answer to a single request is of the kind asked for *)
Definition usable (filters_of : octets -> option filters) (ans : op -> content) (k : call) : Prop :=
  match k with
  | KSchema n v => exists t, data_of ans (OSchema n v) (RSchema t)
  | KLibrary => exists l, data_of ans OLibrary (RLibrary l)
  | KFilters => exists f, device_filters filters_of ans f
  | _ => False
  end.
(* how many of the calls ask for the library, for the filters *)
Definition asks_library (k : call) : bool := match k with KLibrary => true | _ => false end.
Definition asks_filters (k : call) : bool := match k with KFilters => true | _ => false end.
Definition count {A} (p : A -> bool) (l : list A) : nat := length (filter p l).
(* a call that sends what its name says (the plain [rpc] can send anything) *)
Definition plain (k : call) : Prop := match k with KRpc _ => False | _ => True end.
