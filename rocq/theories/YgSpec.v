(* What depends on what in a YANG library, and what it means to register schemas
   in dependency order. *)
From Coq Require Import Permutation.
From Verif Require Import Base MapLib YlModel YlSpec YgModel.

Section Depends.
Variable deps_of : octets -> option (list name * list name).
Variable lib : library.
Variable texts : list (name * octets).
Definition text_imports (a b : name) : Prop :=
  exists t d, mget N.eqb a texts = Some t /\ deps_of t = Some d /\ In b (fst d).
Definition text_includes (a b : name) : Prop :=
  exists t d, mget N.eqb a texts = Some t /\ deps_of t = Some d /\ In b (snd d).
(* The texts that count: those of the listed modules and import-only modules,
   and of what they include. *)
Inductive counts : name -> Prop :=
| CountsMod : forall m, has_module lib m -> counts (md_name m)
| CountsImp : forall i, has_import lib i -> counts (im_name i)
| CountsSub : forall a b, counts a -> text_includes a b -> counts b.
(* [a] depends on [b]: it imports or includes it, or it augments or deviates it. *)
Definition depends (a b : name) : Prop :=
  (counts a /\ (text_imports a b \/ text_includes a b)) \/
  (exists m, has_module lib m /\ md_name m = b /\ In a (md_augs m ++ md_devs m)).
(* includes among the texts are not circular *)
Definition ranked (rank : name -> nat) : Prop := forall a b, text_includes a b -> (rank b < rank a)%nat.
End Depends.

(* A topological order of a graph: every node once, sources first. *)
Definition before (order : list name) (b a : name) : Prop :=
  exists l1 l2 l3, order = l1 ++ b :: l2 ++ a :: l3.
Definition is_topo (g : graph) (order : list name) : Prop :=
  Permutation order (g_nodes g) /\ forall b a, In (b, a) (g_edges g) -> before order b a.

(* A reference to something registered earlier, under the subject and with the
   version the registry returned then (a missing one counts as nothing). *)
Definition resolved (earlier : entries) (x : sref) : Prop :=
  exists s r, In (rf_name x, s, r) earlier /\
    rf_subject x = match rg_subject r with Some u => u | None => 0 end /\
    rf_version x = match rg_version r with Some v => v | None => 0 end.
(* the registry names subject and version in every answer *)
Definition full_answers (server : history -> call -> option answer) : Prop :=
  forall h c r, server h c = Some (AReg r) -> rg_subject r <> None /\ rg_version r <> None.

(* names of a library, submodules of import-only modules included *)
Definition is_name (lib : library) (n : name) : Prop :=
  (exists m, has_module lib m /\ (n = md_name m \/ In n (map sb_name (md_subs m)))) \/
  (exists i, has_import lib i /\ (n = im_name i \/ In n (map sb_name (im_subs i)))).

(* ---- registrations ---- *)
Definition e_of (x : name * schema * registered) : name := fst (fst x).
Definition ref_names (s : schema) : list name := map rf_name (sc_refs s).
(* the registry gives an id where it gives no version *)
Definition gives_ids (server : history -> call -> option answer) : Prop :=
  forall h c r, server h c = Some (AReg r) -> rg_version r = None -> rg_id r <> None.
(* every answer names its subject; a schema looked up by content has a version *)
Definition names_subjects (server : history -> call -> option answer) : Prop :=
  forall h c r, server h c = Some (AReg r) -> rg_subject r <> None.
Definition looks_up (server : history -> call -> option answer) : Prop :=
  forall h u x r, server h (CBySchema u x) = Some (AReg r) -> rg_version r <> None.
(* A registration that was not granted is followed by switching off the check of
   its subject and by the same registration again, granted. *)
Definition overridden (h : history) : Prop :=
  forall h1 u s a h2, h = h1 ++ (CRegister u s, a) :: h2 -> (forall r, a <> Some (AReg r)) ->
    exists r h3, h2 = (CNoCompat u, Some ADone) :: (CRegister u s, Some (AReg r)) :: h3.
