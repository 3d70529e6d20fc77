(* Model of the dependency graph of a YANG library and of its registration in a
   schema registry (crates/netconf-proto/src/yanglib.rs). *)
From Verif Require Import Base MapLib YlModel.

(* ------------------------------------------------------------------ *)
(* petgraph's DiGraph: the nodes are the names (there is one node per name,
   550-573), the edges in the order they were added. *)
Record graph := Graph { g_nodes : list name; g_edges : list (name * name) }.
Definition edge_eqb (e f : name * name) : bool := (fst e =? fst f) && (snd e =? snd f).
(* yanglib.rs:467-469 and elsewhere: add_edge unless contains_edge *)
Definition add_edge (e : name * name) (g : graph) : graph :=
  if existsb (edge_eqb e) (g_edges g) then g else Graph (g_nodes g) (g_edges g ++ [e]).

(* yanglib.rs:541-580 construct_nodes: a module already there is skipped with
   its submodules. *)
Definition add_node (l : list name) (n : name) : list name := if mem n l then l else l ++ [n].
Definition mod_nodes (l : list name) (m : modul) : list name :=
  if mem (md_name m) l then l else fold_left add_node (map sb_name (md_subs m)) (l ++ [md_name m]).
Definition imp_nodes (l : list name) (i : impmod) : list name :=
  if mem (im_name i) l then l else fold_left add_node (map sb_name (im_subs i)) (l ++ [im_name i]).
Definition set_nodes (l : list name) (s : mset_) : list name :=
  fold_left imp_nodes (flat_map snd (ms_imps s)) (fold_left mod_nodes (ms_mods s) l).
Definition lib_nodes (lib : library) : list name := fold_left set_nodes lib [].

(* The messages of the Box<str> errors *)
Inductive gerr := NoModule (n : name) | NoSub (n : name) | NotInGraph (n : name) | NoSchema (n : name) | BadText (n : name).
Definition gres := res gerr.

Section Graph.
(* extract_yang_dependencies: the imported and the included names *)
Variable deps_of : octets -> option (list name * list name).
Variable lib : library.
Variable texts : list (name * octets).

(* yanglib.rs:530-538 check_module_exists *)
Definition module_exists (n : name) : bool :=
  match find_module lib n, find_import lib n with None, None => false | _, _ => true end.
Definition in_graph (n : name) (g : graph) : bool := mem n (g_nodes g).
Fixpoint gfold {A} (f : A -> graph -> gres graph) (l : list A) (g : graph) : gres graph :=
  match l with
  | [] => Ok g
  | x :: r => rbind (f x g) (gfold f r)
  end.
(* yanglib.rs:462-470 *)
Definition add_import_edge (cur : name) (n : name) (g : graph) : gres graph :=
  if module_exists n
  then if in_graph n g then Ok (add_edge (n, cur) g) else Err (NotInGraph n)
  else Err (NoModule n).
(* yanglib.rs:454-491 add_deps_to_graph.  Each recursive call takes one unit of
   [fuel]: running out of it stands for exhausting the stack. *)
Fixpoint add_deps (fuel : nat) (d : list name * list name) (cur : name) (g : graph) : gres graph :=
  match fuel with
  | O => Diverge
  | S f =>
      rbind (gfold (add_import_edge cur) (fst d) g)
        (gfold (fun n g =>
           match find_submodule lib n with
           | None => Err (NoSub n)
           | Some _ =>
               if in_graph n g
               then match mget N.eqb n texts with
                    | None => Panic
                    | Some t => match deps_of t with
                                | None => Err (BadText n)
                                | Some d' => add_deps f d' n (add_edge (n, cur) g)
                                end
                    end
               else Err (NotInGraph n)
           end) (snd d))
  end.
(* yanglib.rs:493-528 and 436-452 *)
Definition own_deps (fuel : nat) (n : name) (g : graph) : gres graph :=
  if in_graph n g
  then match mget N.eqb n texts with
       | None => Err (NoSchema n)
       | Some t => match deps_of t with None => Err (BadText n) | Some d => add_deps fuel d n g end
       end
  else Panic.
Definition add_change_edge (cur : name) (n : name) (g : graph) : gres graph :=
  if module_exists n
  then if in_graph n g then Ok (add_edge (cur, n) g) else Err (NotInGraph n)
  else Err (NoModule n).
Definition add_module_edges (fuel : nat) (m : modul) (g : graph) : gres graph :=
  rbind (own_deps fuel (md_name m) g)
    (gfold (add_change_edge (md_name m)) (md_augs m ++ md_devs m)).
(* yanglib.rs:407-434 to_graph *)
Definition to_graph (fuel : nat) : gres graph :=
  gfold (fun s g => rbind (gfold (add_module_edges fuel) (ms_mods s) g)
                          (gfold (fun i g => own_deps fuel (im_name i) g) (flat_map snd (ms_imps s))))
        lib (Graph (lib_nodes lib) []).
End Graph.

(* ------------------------------------------------------------------ *)
(* schema_registry_client's models *)
(* SchemaReference *)
Record sref := Ref { rf_name : name; rf_subject : N; rf_version : N }.
(* Schema: text, references, features among the tags *)
Record schema := Schema { sc_text : octets; sc_refs : list sref; sc_feats : list octets }.
(* RegisteredSchema *)
Record registered := Reg { rg_subject : option N; rg_version : option N; rg_id : option N }.
(* The calls to the registry *)
Inductive call :=
| CRegister (subject : N) (s : schema)
| CById (subject id : N)
| CBySchema (subject : N) (s : N)
| CNoCompat (subject : N).
(* The answers: nothing, a schema, or a registration; [None] in the place of the
   answer is an error. *)
Inductive answer := ADone | ASchema (s : N) | AReg (r : registered).
Definition history := list (call * option answer).

Inductive rerr := RootNotFound (n : name) | GraphError (e : gerr) | CycleDetected | RegistrationError.
Definition rres := res rerr.

Section Register.
Variable deps_of : octets -> option (list name * list name).
(* The subject of a name: `{subject_prefix}{name}` *)
Variable subject_of : name -> N.
(* The registry: any answers, depending on all that went before. *)
Variable server : history -> call -> option answer.
(* petgraph's toposort: an order, or a cycle *)
Variable topo : graph -> option (list name).

Definition ask (h : history) (c : call) : history * option answer := (h ++ [(c, server h c)], server h c).
(* yanglib.rs:335-392 register_with_retry.  An answer of another kind cannot
   come from the client library and is taken as an error. *)
Definition register_one (h : history) (n : name) (s : schema) : history * rres registered :=
  let subject := subject_of n in
  match ask h (CRegister subject s) with
  | (h, Some (AReg r)) =>
      match rg_version r with
      | Some _ => (h, Ok r)
      | None =>
          match rg_id r with
          | None => (h, Panic)
          | Some id =>
              match ask h (CById subject id) with
              | (h, Some (ASchema x)) =>
                  match ask h (CBySchema subject x) with
                  | (h, Some (AReg r')) => (h, Ok r')
                  | (h, _) => (h, Err RegistrationError)
                  end
              | (h, _) => (h, Err RegistrationError)
              end
          end
      end
  | (h, _) =>
      match ask h (CNoCompat subject) with
      | (h, Some ADone) =>
          match ask h (CRegister subject s) with
          | (h, Some (AReg r)) => (h, Ok r)
          | (h, _) => (h, Err RegistrationError)
          end
      | (h, _) => (h, Err RegistrationError)
      end
  end.

(* references.sort_by name *)
Fixpoint insert_ref (x : sref) (l : list sref) : list sref :=
  match l with
  | [] => [x]
  | y :: r => if rf_name x <=? rf_name y then x :: l else y :: insert_ref x r
  end.
Definition sort_refs (l : list sref) : list sref := fold_right insert_ref [] l.
(* The neighbours of a node *)
Definition sources (g : graph) (n : name) : list name := map fst (filter (fun e => snd e =? n) (g_edges g)).
Definition no_targets (g : graph) (n : name) : bool := negb (existsb (fun e => fst e =? n) (g_edges g)).
(* supplied_references.get(dep).unwrap() *)
Fixpoint refs_of (supplied : list (name * sref)) (l : list name) : rres (list sref) :=
  match l with
  | [] => Ok []
  | n :: r => match mget N.eqb n supplied with
              | None => Panic
              | Some x => rbind (refs_of supplied r) (fun q => Ok (x :: q))
              end
  end.
Definition feats_of (lib : library) (n : name) : list octets :=
  match find_module lib n with Some m => md_feats m | None => [] end.
Definition or0 (x : option N) : N := match x with Some v => v | None => 0 end.

(* What was registered, in order: the name, the schema given, the answer. *)
Definition entries := list (name * schema * registered).
Record rst := RSt { r_hist : history; r_supplied : list (name * sref); r_log : entries }.

(* yanglib.rs:195-283 one node of the order, or the last registration of the
   root (284-330): [l] are the names to refer to *)
Definition register_node (lib : library) (texts : list (name * octets)) (n : name) (l : list name) (st : rst)
    : rst * rres registered :=
  match refs_of (r_supplied st) l with
  | Ok refs =>
      match mget N.eqb n texts with
      | None => (st, Panic)
      | Some t =>
          let s := Schema t (sort_refs refs) (feats_of lib n) in
          match register_one (r_hist st) n s with
          | (h, Ok r) =>
              (RSt h (mset N.eqb n (Ref n (or0 (rg_subject r)) (or0 (rg_version r))) (r_supplied st))
                   (r_log st ++ [(n, s, r)]), Ok r)
          | (h, Err e) => (RSt h (r_supplied st) (r_log st), Err e)
          | (h, Panic) => (RSt h (r_supplied st) (r_log st), Panic)
          | (h, Diverge) => (RSt h (r_supplied st) (r_log st), Diverge)
          end
      end
  | Err e => (st, Err e)
  | Panic => (st, Panic)
  | Diverge => (st, Diverge)
  end.
Fixpoint register_all (lib : library) (texts : list (name * octets)) (g : graph) (l : list name) (st : rst) : rst * rres unit :=
  match l with
  | [] => (st, Ok tt)
  | n :: r =>
      match register_node lib texts n (sources g n) st with
      | (st, Ok _) => register_all lib texts g r st
      | (st, Err e) => (st, Err e)
      | (st, Panic) => (st, Panic)
      | (st, Diverge) => (st, Diverge)
      end
  end.
(* yanglib.rs:143-330 register_schema.  The set of nodes without outgoing edges
   has no order, but the references are sorted afterwards. *)
Definition register_schema (fuel : nat) (lib : library) (texts : list (name * octets)) (root : name)
    : rst * rres registered :=
  let st0 := RSt [] [] [] in
  match find_module lib root with
  | None => (st0, Err (RootNotFound root))
  | Some _ =>
      match to_graph deps_of lib texts fuel with
      | Err e => (st0, Err (GraphError e))
      | Panic => (st0, Panic)
      | Diverge => (st0, Diverge)
      | Ok g =>
          match topo g with
          | None => (st0, Err CycleDetected)
          | Some order =>
              if mem root (g_nodes g)
              then match register_all lib texts g order st0 with
                   | (st, Ok _) =>
                       match mget N.eqb root texts with
                       | None => (st, Panic)
                       | Some _ => register_node lib texts root (sources g root ++ filter (no_targets g) (g_nodes g)) st
                       end
                   | (st, Err e) => (st, Err e)
                   | (st, Panic) => (st, Panic)
                   | (st, Diverge) => (st, Diverge)
                   end
              else (st0, Panic)
          end
      end
  end.
End Register.
