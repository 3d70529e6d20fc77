(* YANG library: loading the modules a subscription needs from a device
   (crates/netconf-proto/src/client.rs load_from_modules) and the module set
   builder (crates/netconf-proto/src/yanglib.rs ModuleSetBuilder).

   Names and revisions are only compared, so they are numbers.  A schema text
   and a feature name are lists of octets. *)
From Verif Require Import Base MapLib.

Definition name := N.
Definition octets := list N.
(* yanglib.rs Submodule, Module, ImportOnlyModule, ModuleSet, YangLibrary: the
   fields the loader, the builder and the graph look at.  Namespaces and
   locations are left out. *)
Record submod := Sub { sb_name : name; sb_rev : option N }.
Record modul := Mod { md_name : name; md_rev : option N; md_feats : list octets;
                      md_subs : list submod; md_devs : list name; md_augs : list name }.
Record impmod := Imp { im_name : name; im_rev : option N; im_subs : list submod }.
(* yanglib.rs:887-896: both maps are keyed by the name of their values
   (ModuleSet::new, 903-911); a list stands for the insertion order. *)
Record mset_ := MSet { ms_mods : list modul; ms_imps : list (name * list impmod) }.
Definition library := list mset_.

(* IndexMap::get on the modules of a set *)
Definition mod_is (n : name) (m : modul) : bool := md_name m =? n.
Definition get_mod (n : name) (l : list modul) : option modul := find (mod_is n) l.
(* IndexMap::insert: in place for a known key, else at the end *)
Fixpoint put_mod (m : modul) (l : list modul) : list modul :=
  match l with
  | [] => [m]
  | x :: r => if md_name x =? md_name m then m :: r else x :: put_mod m r
  end.

(* yanglib.rs:73-81 find_module *)
Fixpoint find_module (lib : library) (n : name) : option modul :=
  match lib with
  | [] => None
  | s :: r => match get_mod n (ms_mods s) with Some m => Some m | None => find_module r n end
  end.
(* yanglib.rs:83-95 find_submodule: only the submodules of full modules *)
Definition sub_is (n : name) (s : submod) : bool := sb_name s =? n.
Definition all_subs (lib : library) : list submod :=
  flat_map (fun s => flat_map md_subs (ms_mods s)) lib.
Definition find_submodule (lib : library) (n : name) : option submod :=
  find (sub_is n) (all_subs lib).
(* yanglib.rs:97-111 find_import_module: the revisions in the first set that
   has the name *)
Fixpoint find_import (lib : library) (n : name) : option (list impmod) :=
  match lib with
  | [] => None
  | s :: r => match mget N.eqb n (ms_imps s) with Some l => Some l | None => find_import r n end
  end.

(* ------------------------------------------------------------------ *)
(* The builder. *)
(* yanglib.rs:1763-1770 ModuleSetBuilder *)
Record builder := Bld { b_mods : list modul; b_imps : list (name * list impmod);
                        b_texts : list (name * octets); b_subs : list (name * submod) }.
(* yanglib.rs:1773-1779 new *)
Definition new_builder : builder := Bld [] [] [] [].
(* yanglib.rs:2214-2229 CompatabilityResult *)
Inductive compat := Same | SameGoodFeatures | SameBadFeatures | Compatible | Incompatible.
(* yanglib.rs:2277-2287 AddResult (the reported versions left out) *)
Inductive added := Added | Updated | AlreadyExists.
(* yanglib.rs:2289- DependencyError, and the errors of the client around it *)
Inductive lerr := ModuleNotFound (n : name) | SubmoduleNotFound (m n : name)
                | VersionConflict (n : name) | SchemaNotFound (n : name)
                | FetchError (n : name) | ParseError (n : name).
Definition lres := res lerr.

Section Builder.
(* The compatibility checker: any function of what it is shown. *)
Variable checker : name -> option N -> option N -> octets -> octets -> list octets -> list octets -> compat.
(* The order in which a HashSet of features is listed. *)
Variable set_order : list octets -> list octets.

Definition text_or (b : builder) (n : name) (t : octets) : octets :=
  match mget N.eqb n (b_texts b) with Some x => x | None => t end.

(* yanglib.rs:1790-1859 add_module *)
Definition set_feats (f : list octets) (m : modul) : modul :=
  Mod (md_name m) (md_rev m) f (md_subs m) (md_devs m) (md_augs m).
Definition add_module (m : modul) (t : octets) (b : builder) : builder * lres added :=
  match get_mod (md_name m) (b_mods b) with
  | None =>
      (Bld (put_mod m (b_mods b)) (b_imps b) (mset N.eqb (md_name m) t (b_texts b)) (b_subs b), Ok Added)
  | Some old =>
      match checker (md_name old) (md_rev old) (md_rev m) (text_or b (md_name old) t) t
                    (md_feats old) (md_feats m) with
      | Same => (b, Ok AlreadyExists)
      | Compatible | SameGoodFeatures =>
          (Bld (put_mod (set_feats (set_order (md_feats old ++ md_feats m)) m) (b_mods b)) (b_imps b)
               (mset N.eqb (md_name m) t (b_texts b)) (b_subs b), Ok Updated)
      | Incompatible | SameBadFeatures => (b, Err (VersionConflict (md_name m)))
      end
  end.

(* yanglib.rs:1892-1937 and 2043-2090: the part the two submodule functions
   share *)
Definition put_sub (s : submod) (t : octets) (b : builder) : builder :=
  Bld (b_mods b) (b_imps b) (mset N.eqb (sb_name s) t (b_texts b)) (mset N.eqb (sb_name s) s (b_subs b)).
Definition accept_sub (s : submod) (t : octets) (b : builder) : builder * lres added :=
  match mget N.eqb (sb_name s) (b_subs b) with
  | None => (put_sub s t b, Ok Added)
  | Some old =>
      match checker (sb_name s) (sb_rev old) (sb_rev s) (text_or b (sb_name s) t) t [] [] with
      | Same => (b, Ok AlreadyExists)
      | Compatible | SameGoodFeatures => (put_sub s t b, Ok Updated)
      | Incompatible | SameBadFeatures => (b, Err (VersionConflict (sb_name s)))
      end
  end.
(* yanglib.rs:1864-1937 add_submodule_for_module *)
Definition add_sub (parent : name) (s : submod) (t : octets) (b : builder) : builder * lres added :=
  match get_mod parent (b_mods b) with
  | None => (b, Err (ModuleNotFound parent))
  | Some m =>
      if existsb (sub_is (sb_name s)) (md_subs m) then accept_sub s t b
      else (b, Err (SubmoduleNotFound parent (sb_name s)))
  end.
(* yanglib.rs:2025-2090 add_submodule_for_import_only_module *)
Definition add_imp_sub (parent : name) (s : submod) (t : octets) (b : builder) : builder * lres added :=
  match mget N.eqb parent (b_imps b) with
  | None => (b, Err (ModuleNotFound parent))
  | Some _ => accept_sub s t b
  end.

Definition rev_eqb (a b : option N) : bool :=
  match a, b with Some x, Some y => x =? y | None, None => true | _, _ => false end.
(* yanglib.rs:1942-2019 add_import_only_module: a revision other than the one
   held is "not found" (1957-1966). *)
Definition put_imp (i : impmod) (t : octets) (b : builder) : builder :=
  Bld (b_mods b) (mset N.eqb (im_name i) [i] (b_imps b)) (mset N.eqb (im_name i) t (b_texts b)) (b_subs b).
Definition add_import (i : impmod) (t : octets) (b : builder) : builder * lres added :=
  match mget N.eqb (im_name i) (b_imps b) with
  | None => (put_imp i t b, Ok Added)
  | Some olds =>
      match find (fun o => rev_eqb (im_rev o) (im_rev i)) olds with
      | None => (b, Err (ModuleNotFound (im_name i)))
      | Some old =>
          match checker (im_name i) (im_rev old) (im_rev i) (text_or b (im_name i) t) t [] [] with
          | Same => (b, Ok AlreadyExists)
          | Compatible | SameGoodFeatures => (put_imp i t b, Ok Updated)
          | Incompatible | SameBadFeatures => (b, Err (VersionConflict (im_name i)))
          end
      end
  end.

(* Sequencing of builder calls joined by [?]: a failed call ends the sequence
   and the builder stays as that call left it. *)
Definition bbind {A B} (x : builder * lres A) (f : A -> builder -> builder * lres B) : builder * lres B :=
  match x with
  | (b, Ok a) => f a b
  | (b, Err e) => (b, Err e)
  | (b, Panic) => (b, Panic)
  | (b, Diverge) => (b, Diverge)
  end.
Fixpoint bfold {A} (f : A -> builder -> builder * lres unit) (l : list A) (b : builder) : builder * lres unit :=
  match l with
  | [] => (b, Ok tt)
  | x :: r => bbind (f x b) (fun _ b => bfold f r b)
  end.
Definition need_text {A} (texts : list (name * octets)) (n : name)
    (f : octets -> builder -> builder * lres A) (b : builder) : builder * lres A :=
  match mget N.eqb n texts with Some t => f t b | None => (b, Err (SchemaNotFound n)) end.
Definition ignore (x : builder * lres added) : builder * lres unit := bbind x (fun _ b => (b, Ok tt)).

(* yanglib.rs:725-792 YangLibrary::into_module_set_builder.  The texts of all
   submodules are looked up before the module is added. *)
Definition has_texts (texts : list (name * octets)) (l : list submod) : option name :=
  option_map sb_name (find (fun s => negb (mhas N.eqb (sb_name s) texts)) l).
Definition import_module_of (texts : list (name * octets)) (m : modul) (b : builder) : builder * lres unit :=
  need_text texts (md_name m) (fun t b =>
    match has_texts texts (md_subs m) with
    | Some n => (b, Err (SchemaNotFound n))
    | None =>
        bbind (add_module m t b) (fun _ b =>
          bfold (fun s b => need_text texts (sb_name s) (fun t b => ignore (add_sub (md_name m) s t b)) b)
                (md_subs m) b)
    end) b.
Definition import_only_of (texts : list (name * octets)) (i : impmod) (b : builder) : builder * lres unit :=
  need_text texts (im_name i) (fun t b =>
    match has_texts texts (im_subs i) with
    | Some n => (b, Err (SchemaNotFound n))
    | None =>
        bbind (add_import i t b) (fun _ b =>
          bfold (fun s b => need_text texts (sb_name s) (fun t b => ignore (add_imp_sub (im_name i) s t b)) b)
                (im_subs i) b)
    end) b.
Definition into_builder (lib : library) (texts : list (name * octets)) : builder * lres unit :=
  bfold (fun s b => bbind (bfold (import_module_of texts) (ms_mods s) b)
                          (fun _ b => bfold (import_only_of texts) (flat_map snd (ms_imps s)) b))
        lib new_builder.

(* yanglib.rs:2135-2211 extend_from_yang_lib (the map of results left out) *)
Definition keep_feats (m : modul) (b : builder) : builder :=
  match get_mod (md_name m) (b_mods b) with
  | Some old => Bld (put_mod (set_feats (md_feats m) old) (b_mods b)) (b_imps b) (b_texts b) (b_subs b)
  | None => b
  end.
Definition extend_module (texts : list (name * octets)) (m : modul) (b : builder) : builder * lres unit :=
  need_text texts (md_name m) (fun t b =>
    bbind (add_module m t (keep_feats m b)) (fun _ b =>
      bfold (fun s b => need_text texts (sb_name s) (fun t b => ignore (add_sub (md_name m) s t b)) b)
            (md_subs m) b)) b.
Definition extend_import (texts : list (name * octets)) (i : impmod) (b : builder) : builder * lres unit :=
  need_text texts (im_name i) (fun t b =>
    bbind (add_import i t b) (fun _ b =>
      bfold (fun s b => need_text texts (sb_name s) (fun t b => ignore (add_imp_sub (im_name i) s t b)) b)
            (im_subs i) b)) b.
Definition firsts (l : list (name * list impmod)) : list impmod :=
  flat_map (fun x => match snd x with i :: _ => [i] | [] => [] end) l.
Definition extend (lib : library) (texts : list (name * octets)) (b : builder) : builder * lres unit :=
  bfold (fun s b => bbind (bfold (extend_module texts) (ms_mods s) b)
                          (fun _ b => bfold (extend_import texts) (firsts (ms_imps s)) b)) lib b.

(* ------------------------------------------------------------------ *)
(* yanglib.rs:2097-2133 build_yang_lib.  [hash] is SHA-256 in hexadecimal of
   the octets fed to it. *)
Variable hash : octets -> N.
Record loaded := Loaded { l_cid : N; l_mods : list modul; l_imps : list (name * list impmod);
                          l_texts : list (name * octets) }.
(* [yang_schemas.get(name).unwrap()] *)
Definition must (texts : list (name * octets)) (n : name) : lres octets :=
  match mget N.eqb n texts with Some t => Ok t | None => Panic end.
Fixpoint musts (texts : list (name * octets)) (l : list name) : lres octets :=
  match l with
  | [] => Ok []
  | n :: r => rbind (must texts n) (fun t => rbind (musts texts r) (fun u => Ok (t ++ u)))
  end.
Definition mod_octets (texts : list (name * octets)) (m : modul) : lres octets :=
  rbind (musts texts (map sb_name (md_subs m) ++ [md_name m])) (fun t => Ok (concat (md_feats m) ++ t)).
Definition imp_octets (texts : list (name * octets)) (i : impmod) : lres octets :=
  musts texts (map sb_name (im_subs i) ++ [im_name i]).
Fixpoint all_octets {A} (f : A -> lres octets) (l : list A) : lres octets :=
  match l with
  | [] => Ok []
  | x :: r => rbind (f x) (fun t => rbind (all_octets f r) (fun u => Ok (t ++ u)))
  end.
Definition build (b : builder) : lres loaded :=
  rbind (all_octets (mod_octets (b_texts b)) (b_mods b)) (fun t =>
    rbind (all_octets (imp_octets (b_texts b)) (flat_map snd (b_imps b))) (fun u =>
      Ok (Loaded (hash (t ++ u)) (b_mods b) (b_imps b) (b_texts b)))).

(* ------------------------------------------------------------------ *)
(* client.rs:817-859 ModuleType *)
Inductive item := Full (m : modul) | FullSub (parent : name) (s : submod)
                | Only (i : impmod) | OnlySub (parent : name) (s : submod).
Definition iname (x : item) : name :=
  match x with Full m => md_name m | FullSub _ s | OnlySub _ s => sb_name s | Only i => im_name i end.
Definition irev (x : item) : option N :=
  match x with Full m => md_rev m | FullSub _ s | OnlySub _ s => sb_rev s | Only i => im_rev i end.
Definition idevs (x : item) : list name := match x with Full m => md_devs m | _ => [] end.
Definition iaugs (x : item) : list name := match x with Full m => md_augs m | _ => [] end.
Definition is_full (x : item) : bool := match x with Full _ | FullSub _ _ => true | _ => false end.

(* The device: the answer to get-schema (None: an error of any kind).  One
   function is enough, since no name is asked for twice (C129). *)
Variable device : name -> option N -> option octets.
(* extract_yang_dependencies: the imported and the included names (None: an
   error); its own model is YpModel. *)
Variable deps_of : octets -> option (list name * list name).

(* client.rs:592-609 one seed *)
Definition seed_items (lib : library) (n : name) : option (list item) :=
  match find_module lib n with
  | Some m => Some [Full m]
  | None => option_map (map Only) (find_import lib n)
  end.
Fixpoint all_seeds (lib : library) (l : list name) : lres (list item) :=
  match l with
  | [] => Ok []
  | n :: r => match seed_items lib n with
              | Some a => rbind (all_seeds lib r) (fun q => Ok (a ++ q))
              | None => Err (ModuleNotFound n)
              end
  end.
(* client.rs:629-644 one import *)
Definition import_items (lib : library) (n : name) : list item :=
  match seed_items lib n with Some l => l | None => [] end.
(* client.rs:646-672 one include, met in the text of [cur] *)
Definition include_items (lib : library) (cur : item) (n : name) : list item :=
  match find_module lib n with
  | Some m => [Full m]
  | None => match find_submodule lib n with
            | Some s => [if is_full cur then FullSub (iname cur) s else OnlySub (iname cur) s]
            | None => []
            end
  end.
(* client.rs:674-690 deviations and augmentations *)
Definition module_items (lib : library) (n : name) : list item :=
  match find_module lib n with Some m => [Full m] | None => [] end.
Definition pushes (lib : library) (cur : item) (d : list name * list name) : list item :=
  flat_map (import_items lib) (fst d) ++ flat_map (include_items lib cur) (snd d) ++
  flat_map (module_items lib) (idevs cur) ++ flat_map (module_items lib) (iaugs cur).
Definition mem (n : name) (l : list name) : bool := existsb (N.eqb n) l.
Definition unseen (visited : list name) (l : list item) : list item :=
  filter (fun x => negb (mem (iname x) visited)) l.
(* client.rs:691-722 *)
Definition add_item (x : item) (t : octets) (b : builder) : builder * lres added :=
  match x with
  | Full m => add_module m t b
  | FullSub p s => add_sub p s t b
  | Only i => add_import i t b
  | OnlySub p s => add_imp_sub p s t b
  end.
(* client.rs:611-723: the breadth-first loop.  [fuel] counts the names still
   to be visited.  The log lists the get-schema requests in order. *)
Definition log := list (name * option N).
Fixpoint bfs (lib : library) (fuel : nat) : list item -> list name -> builder -> log -> log * lres builder :=
  fix skip (q : list item) (visited : list name) (b : builder) (lg : log) : log * lres builder :=
    match q with
    | [] => (lg, Ok b)
    | x :: q' =>
        if mem (iname x) visited then skip q' visited b lg
        else match fuel with
             | O => (lg, Diverge)
             | S f =>
                 let lg := lg ++ [(iname x, irev x)] in
                 let visited := visited ++ [iname x] in
                 match device (iname x) (irev x) with
                 | None => (lg, Err (FetchError (iname x)))
                 | Some t =>
                     match deps_of t with
                     | None => (lg, Err (ParseError (iname x)))
                     | Some d =>
                         match add_item x t b with
                         | (b', Ok _) => bfs lib f (q' ++ unseen visited (pushes lib x d)) visited b' lg
                         | (_, Err e) => (lg, Err e)
                         | (_, Panic) => (lg, Panic)
                         | (_, Diverge) => (lg, Diverge)
                         end
                     end
                 end
             end
    end.
(* client.rs:577-727 load_from_modules, given the library of the device.  The
   fuel: one turn for every entry of the library. *)
Definition set_names (s : mset_) : list name :=
  map md_name (ms_mods s) ++ map sb_name (flat_map md_subs (ms_mods s)) ++ map im_name (flat_map snd (ms_imps s)).
Definition lib_names (lib : library) : list name := flat_map set_names lib.
Definition load_upto (n : nat) (lib : library) (seeds : list name) : log * lres loaded :=
  match all_seeds lib seeds with
  | Ok q => match bfs lib n q [] new_builder [] with
            | (lg, Ok b) => (lg, build b)
            | (lg, Err e) => (lg, Err e)
            | (lg, Panic) => (lg, Panic)
            | (lg, Diverge) => (lg, Diverge)
            end
  | Err e => ([], Err e)
  | Panic => ([], Panic)
  | Diverge => ([], Diverge)
  end.
Definition load (lib : library) (seeds : list name) : log * lres loaded :=
  load_upto (length (lib_names lib)) lib seeds.
End Builder.
