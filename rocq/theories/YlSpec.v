(* What a YANG library says, and what the modules of a subscription need.  Only
   the data types come from the model file. *)
From Verif Require Import Base YlModel.

(* ---- what a library lists ---- *)
Definition has_module (lib : library) (m : modul) : Prop := exists s, In s lib /\ In m (ms_mods s).
Definition has_import (lib : library) (i : impmod) : Prop :=
  exists s n l, In s lib /\ In (n, l) (ms_imps s) /\ In i l.
Definition has_sub (lib : library) (s : submod) : Prop := exists m, has_module lib m /\ In s (md_subs m).

(* A thing with a text: a module, an import-only module that is not implemented
   as well, or a submodule of a module. *)
Inductive entry := EMod (m : modul) | EImp (i : impmod) | ESub (s : submod).
Definition e_name (e : entry) : name :=
  match e with EMod m => md_name m | EImp i => im_name i | ESub s => sb_name s end.
Definition e_rev (e : entry) : option N :=
  match e with EMod m => md_rev m | EImp i => im_rev i | ESub s => sb_rev s end.
Definition implemented (lib : library) (n : name) : Prop := exists m, has_module lib m /\ md_name m = n.
Definition listed (lib : library) (e : entry) : Prop :=
  match e with
  | EMod m => has_module lib m
  | EImp i => has_import lib i /\ ~ implemented lib (im_name i)
  | ESub s => has_sub lib s /\ ~ implemented lib (sb_name s)
  end.
Definition is_sub (e : entry) : Prop := match e with ESub _ => True | _ => False end.
Definition is_import (e : entry) : Prop := match e with EImp _ => True | _ => False end.

(* The maps of a module set are keyed by name and revision. *)
Definition keyed (lib : library) : Prop :=
  forall s, In s lib -> forall n l, In (n, l) (ms_imps s) -> l <> [] /\ forall i, In i l -> im_name i = n.
(* A name stands for one thing. *)
Definition clear (lib : library) : Prop :=
  forall e e', listed lib e -> listed lib e' -> e_name e = e_name e' -> e = e'.

Section Needs.
Variable device : name -> option N -> option octets.
Variable deps_of : octets -> option (list name * list name).
Definition text_of (e : entry) : option octets := device (e_name e) (e_rev e).
Definition imports (e : entry) (n : name) : Prop :=
  exists t d, text_of e = Some t /\ deps_of t = Some d /\ In n (fst d).
Definition includes (e : entry) (n : name) : Prop :=
  exists t d, text_of e = Some t /\ deps_of t = Some d /\ In n (snd d).
(* [changed_by m n]: the library says that module [n] deviates or augments [m] *)
Definition changed_by (e : entry) (n : name) : Prop :=
  match e with EMod m => In n (md_devs m) \/ In n (md_augs m) | _ => False end.
Definition readable (e : entry) : Prop :=
  exists t d, text_of e = Some t /\ deps_of t = Some d.

(* What has to be loaded for the seeds: the closure under imports, includes,
   deviations and augmentations, as far as the library lists them. *)
Inductive needed (lib : library) (seeds : list name) : entry -> Prop :=
| NeedSeed : forall e, listed lib e -> ~ is_sub e -> In (e_name e) seeds -> needed lib seeds e
| NeedImport : forall e e', needed lib seeds e -> imports e (e_name e') ->
    listed lib e' -> ~ is_sub e' -> needed lib seeds e'
| NeedInclude : forall e e', needed lib seeds e -> includes e (e_name e') ->
    listed lib e' -> ~ is_import e' -> needed lib seeds e'
| NeedChange : forall e m', needed lib seeds e -> readable e -> changed_by e (md_name m') ->
    listed lib (EMod m') -> needed lib seeds (EMod m').

(* Every seed is a module the library lists. *)
Definition seeds_known (lib : library) (seeds : list name) : Prop :=
  forall n, In n seeds -> exists e, listed lib e /\ ~ is_sub e /\ e_name e = n.
(* Every text that is needed can be had and read. *)
Definition all_readable (lib : library) (seeds : list name) : Prop :=
  forall e, needed lib seeds e -> readable e.
(* The includes are those of RFC 7950 section 5.1: a module includes only its
   own submodules, and also those its submodules include; import-only modules
   include nothing the library lists. *)
Definition own_includes (lib : library) (seeds : list name) : Prop :=
  (forall m n, needed lib seeds (EMod m) -> includes (EMod m) n ->
     exists s, In s (md_subs m) /\ sb_name s = n) /\
  (forall m s n, needed lib seeds (EMod m) -> In s (md_subs m) -> needed lib seeds (ESub s) ->
     includes (ESub s) n -> includes (EMod m) n) /\
  (forall i n, needed lib seeds (EImp i) -> includes (EImp i) n ->
     forall e, listed lib e -> e_name e = n -> is_import e).
(* Every submodule listed with a needed module is needed itself. *)
Definition subs_of (e : entry) : list submod :=
  match e with EMod m => md_subs m | EImp i => im_subs i | ESub _ => [] end.
Definition subs_needed (lib : library) (seeds : list name) : Prop :=
  forall e s, needed lib seeds e -> In s (subs_of e) ->
    exists e', needed lib seeds e' /\ e_name e' = sb_name s.
End Needs.
