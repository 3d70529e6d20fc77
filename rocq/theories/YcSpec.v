(* What a user of the YANG library cache expects. *)
From Verif Require Import Base MapLib YcModel.
From Coq Require Import String Ascii Permutation.
Open Scope N_scope.

(* The same subscription: everything but the collector, the interface and the
   port of the peer. *)
Definition same_subscription (a b : sinfo) : Prop :=
  si_ip a = si_ip b /\ si_id a = si_id b /\ si_rest a = si_rest b /\ si_cid a = si_cid b.

(* ---- Histories of calls ---- *)
(* A removal that takes a subscription away from a content id. *)
Definition removes (o : cop) (s : sinfo) (cid : string) : Prop :=
  match o with
  | Put _ _ _ => False
  | RmCid cid' => cid' = cid
  | RmInfo s' => same_subscription s s'
  end.
(* After these calls the subscription has the library with this content id: it
   was put, and not removed since. *)
Definition holds (ops : list cop) (s : sinfo) (cid : string) : Prop :=
  exists before s' lib sch after,
  ops = before ++ Put s' lib sch :: after /\ same_subscription s s' /\ yl_cid lib = cid /\
  forall o, In o after -> ~ removes o s cid.
(* No subscription is given a second library before it is removed. *)
Definition settled (ops : list cop) : Prop :=
  forall before s lib sch after cid, ops = before ++ Put s lib sch :: after -> holds before s cid -> yl_cid lib = cid.

(* ---- Libraries that are complete ---- *)
Fixpoint has_char (a : ascii) (s : string) : bool :=
  match s with EmptyString => false | String b s' => Ascii.eqb a b || has_char a s' end.
(* A module or submodule the library names. *)
Definition names (lib : ylib) (i : yitem) : Prop :=
  exists s, In s (yl_sets lib) /\
  ((exists m, In m (ys_modules s) /\ (i = ym_item m \/ In i (ym_subs m))) \/
   (exists g m, In g (ys_imports s) /\ In m (snd g) /\ (i = ym_item m \/ In i (ym_subs m)))).
(* Import-only modules are filed under their name, at least one under each. *)
Definition filed (lib : ylib) : Prop :=
  forall s g, In s (yl_sets lib) -> In g (ys_imports s) ->
  snd g <> [] /\ forall m, In m (snd g) -> yi_name (ym_item m) = fst g.
(* Every module has a revision, one revision, and a schema; import-only modules
   have no submodules; names are identifiers. *)
Record complete (lib : ylib) (sch : list (string * string)) : Prop := {
  cm_filed : filed lib;
  cm_rev : forall i, names lib i -> exists r, yi_rev i = Some r;
  cm_one : forall i j, names lib i -> names lib j -> yi_name i = yi_name j -> i = j;
  cm_no_subs : forall s g m, In s (yl_sets lib) -> In g (ys_imports s) -> In m (snd g) -> ym_subs m = [];
  cm_schema : forall i, names lib i -> exists t, In (yi_name i, t) sch;
  cm_keys : NoDup (map fst sch);
  cm_ident : forall n t, In (n, t) sch -> has_char "@" n = false }.
Definition all_complete (ops : list cop) : Prop :=
  forall s lib sch, In (Put s lib sch) ops -> complete lib sch.
(* A content id always goes with the same library. *)
Definition one_library (ops : list cop) : Prop :=
  forall s1 l1 sch1 s2 l2 sch2, In (Put s1 l1 sch1) ops -> In (Put s2 l2 sch2) ops -> yl_cid l1 = yl_cid l2 -> l1 = l2 /\ sch1 = sch2.
(* Subscriptions present at the same time differ in peer or id. *)
Definition ids_distinct (ops : list cop) : Prop :=
  forall before after s1 c1 s2 c2, ops = before ++ after -> holds before s1 c1 -> holds before s2 c2 ->
  si_ip s1 = si_ip s2 -> si_id s1 = si_id s2 -> same_subscription s1 s2.
(* The router announced the content id the library is stored under. *)
Definition own_cids (ops : list cop) : Prop :=
  forall s lib sch, In (Put s lib sch) ops -> si_cid s = yl_cid lib.

(* What is read through a reference: storage.rs:553-593 *)
Definition read_library (dk : disk) (r : yref) : option ylib :=
  match sget (yr_dir r) dk with
  | Some e => match en_lib e with Some (Full l) => Some l | _ => None end
  | None => None
  end.
Definition read_schemas (dk : disk) (r : yref) : option (list (string * string)) :=
  match sget (yr_dir r) dk with
  | Some e => match en_lib e with
              | Some (Full l) => load_schemas (match en_mods e with Some ms => ms | None => [] end) l
              | _ => None
              end
  | None => None
  end.
(* Two caches that answer alike. *)
Definition same_answers (a b : cache) : Prop :=
  (forall s, get_by_info a s = get_by_info b s) /\ (forall cid, get_by_cid a cid = get_by_cid b cid).
Definition all_parts (order : list part) : Prop := Permutation order [PartLib; PartSubs; PartTmp; PartMods].

(* ---- The actor ---- *)
(* The number a request asks to be answered under. *)
Definition asks (ev : aev) : list N :=
  match ev with
  | AskInfo n _ | AskId n _ _ _ | OneInfo n _ _ | OneId n _ _ _ _ | AskCid n _ => [n]
  | Done _ _ | Cleanup _ => []
  end.
Definition answered (rs : list resp) : list N := map (fun r => fst (fst r)) rs.
(* Streaming lookups only, from requesters that stay. *)
Definition streaming (ev : aev) : Prop :=
  match ev with
  | AskInfo _ _ | AskId _ _ _ _ | AskCid _ _ | Done _ _ => True
  | OneInfo _ _ _ | OneId _ _ _ _ _ | Cleanup _ => False
  end.
(* ... by subscription or content id. *)
Definition by_subscription (ev : aev) : Prop :=
  match ev with AskInfo _ _ | AskCid _ _ | Done _ _ => True | _ => False end.
(* Nothing panics and no requester goes away. *)
Definition healthy (ev : aev) : Prop :=
  match ev with
  | Done _ Panicked | Cleanup _ => False
  | _ => True
  end.
(* A response to a request names the subscription that was asked for. *)
Definition answers (ev : aev) (r : resp) : Prop :=
  match ev with
  | AskInfo n s | OneInfo n s _ => same_subscription (snd (fst r)) s
  | AskId n _ ip id | OneId n _ ip id _ => si_ip (snd (fst r)) = ip /\ si_id (snd (fst r)) = id
  | _ => True
  end.
(* The lookup by peer address and id finds exactly what is held. *)
Definition finds_by_id (ops : list cop) (c : cache) : Prop :=
  (forall s cid, holds ops s cid -> exists s', get_by_id c (si_ip s) (si_id s) = Some (s', Some (YRef cid cid)) /\ same_subscription s' s) /\
  (forall ip id, (forall s cid, holds ops s cid -> si_ip s = ip -> si_id s <> id) -> get_by_id c ip id = None).
(* The files after a call that was cut short after k changes. *)
Definition crashed (order : list part) (st : cstate) (o : cop) (k : nat) : disk :=
  do_steps (snd st) (firstn k (op_steps order st o)).
(* A plain file name. *)
Definition plain (p : string) : Prop := p <> EmptyString /\ p <> "."%string /\ p <> ".."%string /\ has_char "/" p = false.
(* Lookups are for real subscriptions, not for the placeholder. *)
Definition real (ev : aev) : Prop :=
  match ev with
  | AskInfo _ s | OneInfo _ s _ => si_cid s <> "EMPTY"%string
  | _ => True
  end.
(* A lookup by subscription or by id that is queued when it misses. *)
Definition stream_ask (n : N) (ev : aev) : Prop :=
  match ev with AskInfo m _ | AskId m _ _ _ => m = n | _ => False end.
