(* The YANG library cache of YANG-Push: crates/yang-push/src/cache/storage.rs
   (references, disk layout, cache maps) and actor.rs (lookups, fetch workers),
   with crates/netconf-proto/src/yanglib.rs for the lookup of module files. *)
From Verif Require Import Base MapLib.
From Coq Require Import String Ascii.
Open Scope N_scope.

Definition sget {V} := @mget string V String.eqb.
Definition sset {V} := @mset string V String.eqb.
Definition srem {V} := @mrem string V String.eqb.

(* storage.rs:732-809, SubscriptionInfo. [si_rest] is the target, stop time,
   transport, encoding, purpose, update trigger and models; [si_cid] the content
   id the router announced; [si_local] the collector address, the interface and
   the port of the peer. *)
Record sinfo := SInfo { si_ip : N; si_id : N; si_rest : N; si_cid : string; si_local : N }.
(* 811-839: the fields that equality and hashing look at *)
Definition skey : Type := N * N * N * string.
Definition key_of (s : sinfo) : skey := (si_ip s, si_id s, si_rest s, si_cid s).
Definition skey_eqb : skey -> skey -> bool := pair_eqb (pair_eqb (pair_eqb N.eqb N.eqb) N.eqb) String.eqb.
Definition same_sub (a b : sinfo) : bool := skey_eqb (key_of a) (key_of b).
(* 876-896, new_empty; 0 stands for the target EMPTY and no other fields *)
Definition empty_info (local ip id : N) : sinfo := SInfo ip id 0 "EMPTY" local.

(* netconf-proto/yanglib.rs:22-28, 887-895, 1054-1080, 1268-1276, 1343-1349:
   modules, submodules and import-only modules by name and revision; [yl_rest]
   is everything else the library holds *)
Record yitem := YItem { yi_name : string; yi_rev : option string }.
Record ymodule := YModule { ym_item : yitem; ym_subs : list yitem }.
Record yset := YSet { ys_modules : list ymodule; ys_imports : list (string * list ymodule) }.
Record ylib := YLib { yl_cid : string; yl_sets : list yset; yl_rest : N }.
Definition ylib_eq_dec : forall a b : ylib, {a = b} + {a <> b}.
Proof. repeat decide equality. Defined.

Definition name_is (n : string) (i : yitem) : bool := String.eqb (yi_name i) n.
(* yanglib.rs:74-81 *)
Fixpoint find_module (n : string) (sets : list yset) : option yitem :=
  match sets with
  | [] => None
  | s :: sets' => match find (fun m => name_is n (ym_item m)) (ys_modules s) with
                  | Some m => Some (ym_item m)
                  | None => find_module n sets'
                  end
  end.
(* 84-95 *)
Fixpoint find_submodule (n : string) (sets : list yset) : option yitem :=
  match sets with
  | [] => None
  | s :: sets' => match find (name_is n) (flat_map ym_subs (ys_modules s)) with
                  | Some i => Some i
                  | None => find_submodule n sets'
                  end
  end.
(* 100-111 *)
Fixpoint find_import (n : string) (sets : list yset) : option (list ymodule) :=
  match sets with
  | [] => None
  | s :: sets' => match sget n (ys_imports s) with
                  | Some l => Some l
                  | None => find_import n sets'
                  end
  end.

(* storage.rs:496-506: the revision a schema is saved under *)
Definition saved_rev (n : string) (lib : ylib) : option string :=
  match find_module n (yl_sets lib) with
  | Some i => yi_rev i
  | None => match find_import n (yl_sets lib) with
            | Some (m :: _) => yi_rev (ym_item m)
            | Some [] => None
            | None => match find_submodule n (yl_sets lib) with
                      | Some i => yi_rev i
                      | None => None
                      end
            end
  end.
Definition rev_file (n r : string) : string := (n ++ "@" ++ r ++ ".yang")%string.
(* 507-511 *)
Definition saved_name (n : string) (lib : ylib) : string :=
  match saved_rev n lib with Some r => rev_file n r | None => n end.

(* yanglib.rs:688-715 *)
Definition load_one (files : list (string * string)) (i : yitem) : option string :=
  match match yi_rev i with Some r => sget (rev_file (yi_name i) r) files | None => None end with
  | Some t => Some t
  | None => sget (yi_name i ++ ".yang")%string files
  end.
(* 626-668: the modules and submodules that are loaded, in order *)
Definition module_items (m : ymodule) : list yitem := ym_item m :: ym_subs m.
Definition set_items (s : yset) : list yitem :=
  flat_map module_items (ys_modules s) ++ flat_map (fun g => flat_map module_items (snd g)) (ys_imports s).
Definition lib_items (lib : ylib) : list yitem := flat_map set_items (yl_sets lib).
Fixpoint load_all (files : list (string * string)) (is : list yitem) (acc : list (string * string)) : option (list (string * string)) :=
  match is with
  | [] => Some acc
  | i :: is' => match load_one files i with
                | Some t => load_all files is' (sset (yi_name i) t acc)
                | None => None
                end
  end.
Definition load_schemas (files : list (string * string)) (lib : ylib) : option (list (string * string)) :=
  load_all files (lib_items lib) [].

(* The files of one cached library (storage.rs:1-60, layout). [Cut] is a file
   that was created and not completely written; reading it fails. The
   serialisers of the library and of the subscriptions are taken to read back
   what they wrote. *)
Inductive stored (A : Type) := Cut | Full (a : A).
Arguments Cut {A}. Arguments Full {A}.
Record entry := Entry { en_lib : option (stored ylib); en_subs : option (stored (list sinfo));
                        en_tmp : option (stored (list sinfo)); en_mods : option (list (string * string)) }.
Definition no_entry : entry := Entry None None None None.
(* the directories below the cache root, in the order they are listed *)
Definition disk : Type := list (string * entry).

(* One change of the file system. The process can stop between any two. *)
Inductive dstep :=
| MkDir (d : string) | PutLib (d : string) (f : stored ylib) | PutSubs (d : string) (f : stored (list sinfo))
| PutTmp (d : string) (f : stored (list sinfo)) | RenameTmp (d : string)
| MkMods (d : string) | PutMod (d f t : string)
| RmLib (d : string) | RmSubs (d : string) | RmTmp (d : string) | RmMods (d : string) | RmDir (d : string).
Definition upd (d : string) (f : entry -> entry) (dk : disk) : disk :=
  match sget d dk with Some e => sset d (f e) dk | None => dk end.
Definition do_step (dk : disk) (x : dstep) : disk :=
  match x with
  | MkDir d => match sget d dk with Some _ => dk | None => sset d no_entry dk end
  | PutLib d f => upd d (fun e => Entry (Some f) (en_subs e) (en_tmp e) (en_mods e)) dk
  | PutSubs d f => upd d (fun e => Entry (en_lib e) (Some f) (en_tmp e) (en_mods e)) dk
  | PutTmp d f => upd d (fun e => Entry (en_lib e) (en_subs e) (Some f) (en_mods e)) dk
  | RenameTmp d => upd d (fun e => match en_tmp e with
                                   | Some f => Entry (en_lib e) (Some f) None (en_mods e)
                                   | None => e
                                   end) dk
  | MkMods d => upd d (fun e => match en_mods e with
                                | Some _ => e
                                | None => Entry (en_lib e) (en_subs e) (en_tmp e) (Some [])
                                end) dk
  | PutMod d f t => upd d (fun e => match en_mods e with
                                    | Some ms => Entry (en_lib e) (en_subs e) (en_tmp e) (Some (sset f t ms))
                                    | None => e
                                    end) dk
  | RmLib d => upd d (fun e => Entry None (en_subs e) (en_tmp e) (en_mods e)) dk
  | RmSubs d => upd d (fun e => Entry (en_lib e) None (en_tmp e) (en_mods e)) dk
  | RmTmp d => upd d (fun e => Entry (en_lib e) (en_subs e) None (en_mods e)) dk
  | RmMods d => upd d (fun e => Entry (en_lib e) (en_subs e) (en_tmp e) None) dk
  | RmDir d => srem d dk
  end.
Definition do_steps (dk : disk) (xs : list dstep) : disk := fold_left do_step xs dk.

(* storage.rs:284-289: a reference names its directory *)
Record yref := YRef { yr_cid : string; yr_dir : string }.
(* 989-994. The map by subscription id is nested in the source, by address and
   then by id. *)
Record cache := Cache { by_cid : list (string * yref); by_info : list (skey * yref); by_id : list (N * N * sinfo) }.
Definition new_cache : cache := Cache [] [] [].
Definition kget {V} := @mget skey V skey_eqb.
Definition kset {V} := @mset skey V skey_eqb.
Definition krem {V} := @mrem skey V skey_eqb.
Definition id_eqb : N * N -> N * N -> bool := pair_eqb N.eqb N.eqb.
Definition iget {V} := @mget (N * N) V id_eqb.
Definition iset {V} := @mset (N * N) V id_eqb.
Definition irem {V} := @mrem (N * N) V id_eqb.
Definition id_of (s : sinfo) : N * N := (si_ip s, si_id s).

(* 300-372 with 1041-1047 and 568-593: what loading a directory gives *)
Definition load_entry (d : string) (e : entry) : option (yref * list sinfo) :=
  match en_lib e, en_subs e with
  | Some (Full lib), Some (Full subs) =>
      match load_schemas (match en_mods e with Some ms => ms | None => [] end) lib with
      | Some _ => Some (YRef (yl_cid lib) d, subs)
      | None => None
      end
  | _, _ => None
  end.
(* 1054-1060, 1096-1099 *)
Definition index_sub (r : yref) (c : cache) (s : sinfo) : cache :=
  Cache (by_cid c) (kset (key_of s) r (by_info c)) (iset (id_of s) s (by_id c)).
(* 1013-1072; [None] is an error *)
Fixpoint from_disk_acc (dk : disk) (c : cache) : option cache :=
  match dk with
  | [] => Some c
  | (d, e) :: dk' => match load_entry d e with
                     | Some (r, subs) => from_disk_acc dk' (fold_left (index_sub r) subs (Cache (sset (yr_cid r) r (by_cid c)) (by_info c) (by_id c)))
                     | None => None
                     end
  end.
Definition from_disk (dk : disk) : option cache := from_disk_acc dk new_cache.

(* 446-478: the subscriptions already on disk and the new ones. The source goes
   through a HashSet, so the order on disk is not determined. *)
Definition extend_subs (old new : list sinfo) : list sinfo :=
  fold_left (fun acc s => if existsb (same_sub s) acc then acc else acc ++ [s]) new old.
(* 385-528: the changes made, and whether they are all of them *)
Definition save_plan (dk : disk) (d : string) (lib : ylib) (schemas : list (string * string)) (subs : list sinfo) : list dstep * bool :=
  let mk := match sget d dk with Some _ => [] | None => [MkDir d] end in
  let e := match sget d dk with Some e => e | None => no_entry end in
  match match en_lib e with
        | Some (Full l) => if ylib_eq_dec l lib then Some [] else None
        | Some Cut => None
        | None => Some [PutLib d Cut; PutLib d (Full lib)]
        end with
  | None => (mk, false)
  | Some libs =>
      match match en_subs e with
            | Some (Full old) => Some (extend_subs old subs)
            | Some Cut => None
            | None => Some subs
            end with
      | None => (mk ++ libs, false)
      | Some all =>
          (mk ++ libs ++ [PutSubs d Cut; PutSubs d (Full all); MkMods d] ++
           flat_map (fun nt => [PutMod d (saved_name (fst nt) lib) ""; PutMod d (saved_name (fst nt) lib) (snd nt)]) schemas, true)
      end
  end.
(* 629-673 *)
Definition append_plan (dk : disk) (r : yref) (s : sinfo) : list dstep * bool :=
  let d := yr_dir r in
  match sget d dk with
  | None => ([], false)
  | Some e => match en_subs e with
              | Some (Full l) => if existsb (fun i => same_sub i s) l then ([], true)
                                 else ([PutTmp d Cut; PutTmp d (Full (l ++ [s])); RenameTmp d], true)
              | Some Cut => ([], false)
              | None => ([PutSubs d Cut], false)
              end
  end.
(* 679-716 *)
Definition remove_sub_plan (dk : disk) (r : yref) (s : sinfo) : list dstep * bool :=
  let d := yr_dir r in
  match sget d dk with
  | None => ([], false)
  | Some e => match en_subs e with
              | Some (Full l) => if existsb (fun i => same_sub i s) l
                                 then ([PutTmp d Cut; PutTmp d (Full (filter (fun i => negb (same_sub i s)) l)); RenameTmp d], true)
                                 else ([], true)
              | Some Cut | None => ([], false)
              end
  end.

(* std::fs::remove_dir_all: the parts of the directory in the order the system
   lists them, then the directory *)
Inductive part := PartLib | PartSubs | PartTmp | PartMods.
Definition rm_part (d : string) (p : part) : dstep :=
  match p with PartLib => RmLib d | PartSubs => RmSubs d | PartTmp => RmTmp d | PartMods => RmMods d end.
Definition rm_dir_plan (order : list part) (d : string) : list dstep := map (rm_part d) order ++ [RmDir d].

(* 1080-1122 *)
Definition put_plan (c : cache) (dk : disk) (s : sinfo) (lib : ylib) (schemas : list (string * string)) : list dstep * cache * option yref :=
  match sget (yl_cid lib) (by_cid c) with
  | Some r =>
      match kget (key_of s) (by_info c) with
      | Some _ => ([], c, Some r)
      | None => let '(xs, ok) := append_plan dk r s in
                if ok then (xs, index_sub r c s, Some r) else (xs, c, None)
      end
  | None =>
      let '(xs, ok) := save_plan dk (yl_cid lib) lib schemas [s] in
      if ok then
        let r := YRef (yl_cid lib) (yl_cid lib) in
        (xs, Cache (sset (yl_cid lib) r (by_cid c)) (kset (key_of s) r (by_info c)) (iset (id_of s) s (by_id c)), Some r)
      else (xs, c, None)
  end.
(* 1124-1149; [false] is an error *)
Definition rm_cid_plan (order : list part) (c : cache) (dk : disk) (cid : string) : list dstep * cache * bool :=
  match sget cid (by_cid c) with
  | None => ([], c, true)
  | Some r =>
      let c' := Cache (srem cid (by_cid c))
                      (filter (fun kr => negb (String.eqb (yr_cid (snd kr)) cid)) (by_info c))
                      (filter (fun ks => negb (String.eqb (si_cid (snd ks)) cid)) (by_id c)) in
      match sget (yr_dir r) dk with
      | Some e => match en_lib e with
                  | Some _ => (RmLib (yr_dir r) :: rm_dir_plan order (yr_dir r), c', true)
                  | None => ([], c', false)
                  end
      | None => ([], c', false)
      end
  end.
(* 1151-1206 *)
Definition rm_info_plan (order : list part) (c : cache) (dk : disk) (s : sinfo) : list dstep * cache * option (option sinfo) :=
  match kget (key_of s) (by_info c) with
  | None => ([], c, Some None)
  | Some r =>
      let infos := krem (key_of s) (by_info c) in
      let ids := irem (id_of s) (by_id c) in
      if existsb (fun kr => String.eqb (yr_cid (snd kr)) (yr_cid r)) infos then
        let c' := Cache (by_cid c) infos ids in
        match sget (yr_cid r) (by_cid c) with
        | Some r' => let '(xs, ok) := remove_sub_plan dk r' s in (xs, c', if ok then Some (Some s) else None)
        | None => ([], c', Some (Some s))
        end
      else
        match sget (yr_cid r) (by_cid c) with
        | Some r' =>
            let c' := Cache (srem (yr_cid r) (by_cid c)) infos ids in
            let '(xs, ok) := remove_sub_plan dk r' s in
            if ok then
              (xs ++ match sget (yr_cid r') dk with Some _ => rm_dir_plan order (yr_cid r') | None => [] end, c', Some (Some s))
            else (xs, c', None)
        | None => ([], Cache (by_cid c) infos ids, Some (Some s))
        end
  end.
(* 1208-1264 *)
Definition get_by_info (c : cache) (s : sinfo) : option yref := kget (key_of s) (by_info c).
Definition get_by_cid (c : cache) (cid : string) : option yref := sget cid (by_cid c).
Definition get_by_id (c : cache) (ip id : N) : option (sinfo * option yref) :=
  match iget (ip, id) (by_id c) with
  | Some s => Some (s, get_by_info c s)
  | None => None
  end.

(* A cache and its directory under a history of calls. *)
Inductive cop :=
| Put (s : sinfo) (lib : ylib) (schemas : list (string * string))
| RmCid (cid : string) | RmInfo (s : sinfo).
Definition cstate : Type := cache * disk.
Definition op_steps (order : list part) (st : cstate) (o : cop) : list dstep :=
  match o with
  | Put s lib sch => fst (fst (put_plan (fst st) (snd st) s lib sch))
  | RmCid cid => fst (fst (rm_cid_plan order (fst st) (snd st) cid))
  | RmInfo s => fst (fst (rm_info_plan order (fst st) (snd st) s))
  end.
Definition op_cache (order : list part) (st : cstate) (o : cop) : cache :=
  match o with
  | Put s lib sch => snd (fst (put_plan (fst st) (snd st) s lib sch))
  | RmCid cid => snd (fst (rm_cid_plan order (fst st) (snd st) cid))
  | RmInfo s => snd (fst (rm_info_plan order (fst st) (snd st) s))
  end.
Definition cstep (order : list part) (st : cstate) (o : cop) : cstate :=
  (op_cache order st o, do_steps (snd st) (op_steps order st o)).
Definition crun (order : list part) (ops : list cop) : cstate := fold_left (cstep order) ops (new_cache, []).

(* ---- The actor: actor.rs ---- *)
(* A request by number; a response says whom, which subscription, which library. *)
Definition resp : Type := N * sinfo * option yref.
(* fetcher.rs:361-382, 394-420: a worker for a subscription, or for a
   subscription id of a peer *)
Inductive worker := WInfo (s : sinfo) | WId (local ip id : N).
(* the key its requesters wait under *)
Definition worker_key (w : worker) : skey :=
  match w with WInfo s => key_of s | WId l ip id => key_of (empty_info l ip id) end.
(* How the device or the task ended: a panic, an error, or a library. By id the
   device also tells the other fields of the subscription. *)
Inductive outcome := Panicked | Failed | Fetched (rest : N) (rcid : string) (lib : ylib) (schemas : list (string * string)).
(* fetcher.rs:133-205, 207-345: errors and results name the subscription asked
   for; by id, the result is the subscription the device described *)
Definition result_info (w : worker) (o : outcome) : sinfo :=
  match w, o with
  | WInfo s, _ => s
  | WId l ip id, Fetched rest rcid _ _ => SInfo ip id rest rcid l
  | WId l ip id, _ => empty_info l ip id
  end.

Record actor := Actor { a_cache : cache; a_disk : disk; a_pending : list (skey * list N); a_workers : list worker }.
Definition new_actor : actor := Actor new_cache [] [] [].

Definition pending_of (a : actor) (k : skey) : list N := match kget k (a_pending a) with Some l => l | None => [] end.
(* 571-738 *)
Definition worker_result (a : actor) (w : worker) (o : outcome) : actor * list resp :=
  match o with
  | Panicked => (a, [])
  | Failed =>
      let s := result_info w o in
      (Actor (a_cache a) (a_disk a) (krem (key_of s) (a_pending a)) (a_workers a),
       map (fun n => (n, s, None)) (pending_of a (key_of s)))
  | Fetched _ _ lib schemas =>
      let s := result_info w o in
      let '(xs, c', r) := put_plan (a_cache a) (a_disk a) s lib schemas in
      let e := key_of (empty_info (si_local s) (si_ip s) (si_id s)) in
      let p1 := krem (key_of s) (a_pending a) in
      let l := pending_of a (key_of s) ++ match kget e p1 with Some l => l | None => [] end in
      (Actor c' (do_steps (a_disk a) xs) (krem e p1) (a_workers a), map (fun n => (n, s, r)) l)
  end.

(* What the actor takes in. [Ask..] are the streaming lookups, [One..] the
   one-shot ones, which wait for the device: [None] is the fetch timing out.
   Lookups by content id are answered from the map. [Done i o]: the worker at
   position i ended. [Cleanup closed]: requesters that have gone.
   Starting a streaming fetch spawns a task and does not time out. *)
Inductive aev :=
| AskInfo (n : N) (s : sinfo) | AskId (n : N) (local ip id : N)
| OneInfo (n : N) (s : sinfo) (o : option outcome) | OneId (n : N) (local ip id : N) (o : option outcome)
| AskCid (n : N) (cid : string)
| Done (i : nat) (o : outcome) | Cleanup (closed : list N).
Fixpoint del_nth {A} (i : nat) (l : list A) : list A :=
  match l, i with [], _ => [] | _ :: l', O => l' | x :: l', S i' => x :: del_nth i' l' end.
(* 811-868, 961-1026 *)
Definition enqueue (a : actor) (n : N) (w : worker) : actor :=
  let l := pending_of a (worker_key w) in
  Actor (a_cache a) (a_disk a) (kset (worker_key w) (l ++ [n]) (a_pending a))
        (match l with [] => a_workers a ++ [w] | _ => a_workers a end).
(* a blocking fetch that panics takes the actor down; it is left out here *)
Definition one_outcome (o : option outcome) : outcome :=
  match o with Some Panicked | None => Failed | Some o => o end.
Definition astep (a : actor) (ev : aev) : actor * list resp :=
  match ev with
  | AskInfo n s => match get_by_info (a_cache a) s with
                   | Some r => (a, [(n, s, Some r)])
                   | None => (enqueue a n (WInfo s), [])
                   end
  | AskId n l ip id => match get_by_id (a_cache a) ip id with
                       | Some (s, r) => (a, [(n, s, r)])
                       | None => (enqueue a n (WId l ip id), [])
                       end
  | OneInfo n s o => let '(a', rs) := match get_by_info (a_cache a) s with
                                      | Some _ => (a, [])
                                      | None => worker_result a (WInfo s) (one_outcome o)
                                      end in
                     (a', rs ++ [(n, s, get_by_info (a_cache a') s)])
  | OneId n l ip id o => match get_by_id (a_cache a) ip id with
                         | Some (s, r) => (a, [(n, s, r)])
                         | None => worker_result a (WId l ip id) (one_outcome o)
                         end
  | AskCid n cid => (a, [(n, empty_info 0 0 0, get_by_cid (a_cache a) cid)])
  | Done i o => match nth_error (a_workers a) i with
                | Some w => worker_result (Actor (a_cache a) (a_disk a) (a_pending a) (del_nth i (a_workers a))) w o
                | None => (a, [])
                end
  | Cleanup closed =>
      (Actor (a_cache a) (a_disk a)
             (filter (fun kl => match snd kl with [] => false | _ => true end)
                     (map (fun kl => (fst kl, filter (fun n => negb (existsb (N.eqb n) closed)) (snd kl))) (a_pending a)))
             (a_workers a), [])
  end.
Fixpoint arun (a : actor) (evs : list aev) : actor * list resp :=
  match evs with
  | [] => (a, [])
  | ev :: evs' => let '(a1, r1) := astep a ev in let '(a2, r2) := arun a1 evs' in (a2, r1 ++ r2)
  end.

(* ---- Where a library is stored: storage.rs:1104, 1187, Path::join ---- *)
Definition slash : ascii := "/"%char.
Fixpoint split_path (s : string) : list string :=
  match s with
  | EmptyString => [EmptyString]
  | String a s' => if Ascii.eqb a slash then EmptyString :: split_path s'
                   else match split_path s' with
                        | [] => [String a EmptyString]
                        | p :: ps => String a p :: ps
                        end
  end.
(* what the system makes of the components of a path, above the directory
   [up] (innermost first) *)
Fixpoint walk (up : list string) (ps : list string) : list string :=
  match ps with
  | [] => up
  | p :: ps' => if String.eqb p "" || String.eqb p "." then walk up ps'
                else if String.eqb p ".." then walk (match up with [] => [] | _ :: u => u end) ps'
                else walk (p :: up) ps'
  end.
Definition is_absolute (s : string) : bool := match s with String a _ => Ascii.eqb a slash | EmptyString => false end.
(* the directory of a library below the root, both from the top *)
Definition entry_dir (root : list string) (cid : string) : list string :=
  rev (walk (if is_absolute cid then [] else rev root) (split_path cid)).
