(** The daemon's requests and the client library: bfffs-core/src/rpc.rs,
    bfffs/src/bin/bfffsd/main.rs and bfffs/src/lib.rs.

    Messages are values; their encoding by the speedy crate is left out but for
    its size, which is a parameter; it is in [Wire_Model].  The controller is a record of functions on an
    abstract state; [forest_controller] builds its data set part from the forest
    of [Forest_Model].  A client is served on its own connection and sends one
    request at a time; other clients may change the state between two requests,
    and within a request between its reading of the names and its reading of the
    properties.  Errors of the controller are errno numbers.  [None] is a panic. *)
From Verif Require Import Common FSM_Model ZMap Prop_Model Forest_Model.

Definition EPERM : Z := 1.
Inductive rres (A : Type) := ROk (x : A) | RErr (errno : Z).
Arguments ROk {A}. Arguments RErr {A}.

(** rpc.rs 36-41 *)
Record dsinfo := mkdi { di_name : text; di_props : list (property * psource); di_offs : Z }.

(** vdev.rs 16-39 *)
Inductive wfault := WUser | WInsufficient | WRemoved.
Inductive whealth := WOnline | WDegraded (missing : Z) | WFaulted (r : wfault).

(** rpc.rs 120-200: [PoolStatus] *)
Record leafst := mkleaf { lf_health : whealth; lf_path : text; lf_uuid : Z }.
Record mirrorst := mkmirror { mi_leaves : list leafst; mi_health : whealth; mi_uuid : Z }.
Record clusterst := mkcluster { cl_health : whealth; cl_codec : text; cl_mirrors : list mirrorst; cl_uuid : Z }.
Record poolst := mkpoolst { ps_health : whealth; ps_name : text; ps_clusters : list clusterst; ps_uuid : Z }.

(** rpc.rs 285-300; the mount options of [FsMount] are always empty (67-75) *)
Inductive request :=
| QDropCache
| QFsCreate (name : text) (props : list property)
| QFsDestroy (name : text)
| QFsList (name : text) (props : list pname) (offset : option Z)
| QFsMount (name : text)
| QFsSet (name : text) (props : list property)
| QFsStat (name : text) (props : list pname)
| QFsUnmount (name : text) (force : bool)
| QPoolClean (pool : text)
| QPoolFault (pool : text) (device : Z)
| QPoolAttach (pool : text) (mirror : Z) (leaf : text)
| QPoolList (pool : option text) (offset : option Z)
| QPoolStatus (pool : text).

(** rpc.rs 302-317 *)
Inductive response :=
| PDropCache (r : rres unit)
| PFsCreate (r : rres Z)
| PFsDestroy (r : rres unit)
| PFsList (r : rres (list dsinfo))
| PFsMount (r : rres unit)
| PFsSet (r : rres unit)
| PFsStat (r : rres dsinfo)
| PFsUnmount (r : rres unit)
| PPoolClean (r : rres unit)
| PPoolFault (r : rres unit)
| PPoolAttach (r : rres unit)
| PPoolList (r : rres (list (text * Z)))
| PPoolStatus (r : rres poolst).

(** rpc.rs 319-412: each panics on another kind of response *)
Definition into_debug_drop_cache p := match p with PDropCache r => Some r | _ => None end.
Definition into_fs_create p := match p with PFsCreate r => Some r | _ => None end.
Definition into_fs_destroy p := match p with PFsDestroy r => Some r | _ => None end.
Definition into_fs_list p := match p with PFsList r => Some r | _ => None end.
Definition into_fs_mount p := match p with PFsMount r => Some r | _ => None end.
Definition into_fs_set p := match p with PFsSet r => Some r | _ => None end.
Definition into_fs_stat p := match p with PFsStat r => Some r | _ => None end.
Definition into_fs_unmount p := match p with PFsUnmount r => Some r | _ => None end.
Definition into_pool_clean p := match p with PPoolClean r => Some r | _ => None end.
Definition into_pool_fault p := match p with PPoolFault r => Some r | _ => None end.
Definition into_pool_attach p := match p with PPoolAttach r => Some r | _ => None end.
Definition into_pool_list p := match p with PPoolList r => Some r | _ => None end.
Definition into_pool_status p := match p with PPoolStatus r => Some r | _ => None end.

(** controller.rs: what the daemon calls.  [k_list_fs] gives the whole rest of the
    listing, with full names and offsets.  [k_mount] is [Bfffsd::mount]
    (bfffsd/main.rs 221-248) with the mount(2) call. *)
Record controller (St : Type) := mkctl {
  k_drop_cache : St -> St;
  k_create_fs : St -> text -> option (St * rres Z);
  k_destroy_fs : St -> text -> option (St * rres unit);
  k_list_fs : St -> text -> option Z -> option (rres (list (text * Z)));
  k_get_prop : St -> text -> pname -> option (rres (property * psource));
  k_set_prop : St -> text -> property -> option (St * rres unit);
  k_mount : St -> text -> option (St * rres unit);
  k_unmount : St -> text -> bool -> option (St * rres unit);
  k_clean : St -> text -> option (St * rres unit);
  k_fault : St -> text -> Z -> option (St * rres unit);
  k_attach : St -> text -> Z -> text -> option (St * rres unit);
  k_list_pool : St -> option text -> option Z -> option (rres (list (text * Z)));
  k_status : St -> text -> option (rres poolst)
}.
Arguments k_drop_cache {St}. Arguments k_create_fs {St}. Arguments k_destroy_fs {St}. Arguments k_list_fs {St}.
Arguments k_get_prop {St}. Arguments k_set_prop {St}. Arguments k_mount {St}. Arguments k_unmount {St}. Arguments k_clean {St}.
Arguments k_fault {St}. Arguments k_attach {St}. Arguments k_list_pool {St}. Arguments k_status {St}.

(** bfffsd/main.rs 295: CHUNKQTY *)
Definition CHUNKQTY : nat := 64.

(** bfffs/src/lib.rs 347 and bfffsd/main.rs 120: BUFSIZ *)
Definition BUFSIZ : Z := 4096.

(** bfffs/src/lib.rs 23-35; [Other] is an error of the daemon *)
Inductive cerr := Corrupt | NoDevice | NoResponse | TooLarge | Other (errno : Z).
Inductive cres (A : Type) := COk (x : A) | CErr (e : cerr).
Arguments COk {A}. Arguments CErr {A}.

Section Daemon.
Context {St : Type} (K : controller St).

(** bfffsd/main.rs 503-508: the properties one after the other, up to the first
    failure.  Also 272-281, where they are set concurrently: here in order. *)
Fixpoint set_props (s : St) (name : text) (props : list property) : option (St * rres unit) :=
  match props with
  | [] => Some (s, ROk tt)
  | p :: ps =>
    let* (s, r) := k_set_prop K s name p in
    match r with ROk _ => set_props s name ps | RErr e => Some (s, RErr e) end
  end.

(** bfffsd/main.rs 305-314 and 373-379: the first error in the order of the
    names, else all of the values *)
Fixpoint get_props (s : St) (name : text) (ns : list pname) : option (rres (list (property * psource))) :=
  match ns with
  | [] => Some (ROk [])
  | n :: ns =>
    let* r := k_get_prop K s name n in
    match r with
    | RErr e => Some (RErr e)
    | ROk v => let* rs := get_props s name ns in Some (match rs with ROk vs => ROk (v :: vs) | RErr e => RErr e end)
    end
  end.

(** bfffsd/main.rs 300-328 *)
Fixpoint with_props (s : St) (ns : list pname) (l : list (text * Z)) : option (rres (list dsinfo)) :=
  match l with
  | [] => Some (ROk [])
  | (name, offs) :: l =>
    let* r := get_props s name ns in
    match r with
    | RErr e => Some (RErr e)
    | ROk vs => let* rs := with_props s ns l in Some (match rs with ROk is => ROk (mkdi name vs offs :: is) | RErr e => RErr e end)
    end
  end.

(** bfffsd/main.rs 250-494.  [euid] is the daemon's user, [uid] the client's; [s']
    is the state in which a query's properties are read. *)
Definition process_rpc (euid uid : Z) (s s' : St) (q : request) : option (St * response) :=
  match q with
  | QDropCache =>
    if uid =? euid then Some (k_drop_cache K s, PDropCache (ROk tt)) else Some (s, PFsMount (RErr EPERM))
  | QFsCreate name props =>
    if uid =? euid then
      let* (s, r) := k_create_fs K s name in
      match r with
      | RErr e => Some (s, PFsCreate (RErr e))
      | ROk id =>
        let* (s, r) := set_props s name props in
        Some (s, PFsCreate (match r with ROk _ => ROk id | RErr e => RErr e end))
      end
    else Some (s, PFsMount (RErr EPERM))
  | QFsDestroy name =>
    if uid =? euid then let* (s, r) := k_destroy_fs K s name in Some (s, PFsDestroy r) else Some (s, PFsMount (RErr EPERM))
  | QFsList name props offset =>
    let* r := k_list_fs K s name offset in
    match r with
    | RErr e => Some (s, PFsList (RErr e))
    | ROk l => let* r := with_props s' props (firstn CHUNKQTY l) in Some (s, PFsList r)
    end
  | QFsMount name =>
    if uid =? euid then let* (s, r) := k_mount K s name in Some (s, PFsMount r) else Some (s, PFsMount (RErr EPERM))
  | QFsSet name props =>
    if uid =? euid then let* (s, r) := set_props s name props in Some (s, PFsSet r) else Some (s, PFsSet (RErr EPERM))
  | QFsStat name props =>
    let* r := get_props s' name props in
    Some (s, PFsStat (match r with ROk vs => ROk (mkdi name vs 0) | RErr e => RErr e end))
  | QFsUnmount name force =>
    if uid =? euid then let* (s, r) := k_unmount K s name force in Some (s, PFsUnmount r) else Some (s, PFsUnmount (RErr EPERM))
  | QPoolClean pool =>
    if uid =? euid then let* (s, r) := k_clean K s pool in Some (s, PPoolClean r) else Some (s, PPoolClean (RErr EPERM))
  | QPoolFault pool dev =>
    if uid =? euid then let* (s, r) := k_fault K s pool dev in Some (s, PPoolFault r) else Some (s, PPoolClean (RErr EPERM))
  | QPoolAttach pool mirror leaf =>
    if uid =? euid then let* (s, r) := k_attach K s pool mirror leaf in Some (s, PPoolAttach r) else Some (s, PPoolAttach (RErr EPERM))
  | QPoolList pool offset => let* r := k_list_pool K s pool offset in Some (s, PPoolList r)
  | QPoolStatus pool => let* r := k_status K s pool in Some (s, PPoolStatus r)
  end.

(** *** The client *)
Context (qsize : request -> Z) (rsize : response -> Z) (euid uid : Z).

(** bfffs/src/lib.rs 346-367 with bfffsd/main.rs 119-147: a request that is too
    large makes the daemon close the connection, of a response that is too large
    the client reads the first BUFSIZ bytes. *)
Definition call (s s' : St) (q : request) : option (St * cres response) :=
  if BUFSIZ <=? qsize q then Some (s, CErr NoResponse)
  else
    let* (s, p) := process_rpc euid uid s s' q in
    Some (s, if BUFSIZ <=? rsize p then CErr TooLarge else COk p).

(** [self.call(req).await?.into_…().map_err(Error::from)] *)
Definition ask {A} (into : response -> option (rres A)) (s s' : St) (q : request) : option (St * cres A) :=
  let* (s, r) := call s s' q in
  match r with
  | CErr e => Some (s, CErr e)
  | COk p => let* r := into p in Some (s, match r with ROk x => COk x | RErr e => CErr (Other e) end)
  end.

(** bfffs/src/lib.rs 90-121, 214-262, 315-343; what [pool_list] gives as a stream
    is a list here *)
Definition drop_cache s := ask into_debug_drop_cache s s QDropCache.
Definition fs_create s name props := ask into_fs_create s s (QFsCreate name props).
Definition fs_destroy s name := ask into_fs_destroy s s (QFsDestroy name).
Definition fs_mount s name := ask into_fs_mount s s (QFsMount name).
Definition fs_set s name props := ask into_fs_set s s (QFsSet name props).
Definition fs_unmount s name force := ask into_fs_unmount s s (QFsUnmount name force).
Definition pool_clean s pool := ask into_pool_clean s s (QPoolClean pool).
Definition pool_list s pool := ask into_pool_list s s (QPoolList pool None).
Definition pool_status s pool := ask into_pool_status s s (QPoolStatus pool).

(** bfffs/src/lib.rs 51-64 *)
Definition into_uuid (path : text) (st : poolst) : option Z :=
  option_map lf_uuid (find (fun l => text_eqb (lf_path l) path) (concat (map mi_leaves (concat (map cl_mirrors (ps_clusters st)))))).

(** bfffs/src/lib.rs 43-48 *)
Inductive device := DPath (p : text) | DUuid (u : Z).

(** bfffs/src/lib.rs 266-312 *)
Definition with_uuid (s : St) (pool : text) (d : device) (k : Z -> option (St * cres unit)) : option (St * cres unit) :=
  match d with
  | DUuid u => k u
  | DPath path =>
    let* (_, r) := pool_status s pool in
    match r with
    | CErr e => Some (s, CErr e)
    | COk st => match into_uuid path st with None => Some (s, CErr NoDevice) | Some u => k u end
    end
  end.
Definition pool_fault s pool d := with_uuid s pool d (fun u => ask into_pool_fault s s (QPoolFault pool u)).
Definition pool_attach s pool d leaf := with_uuid s pool d (fun u => ask into_pool_attach s s (QPoolAttach pool u leaf)).

(** *** Listing (bfffs/src/lib.rs 139-212)

    [w n] are the states in which the [n]th request of the listing is handled:
    the one in which the names are read and the one in which the properties are. *)
Context (w : nat -> St * St).

(** 148-155: the [State]; the results are kept apart from the rest *)
Record lstate := mkls { ls_offs : option Z; ls_q : list (Z * text); ls_res : list dsinfo; ls_depth : Z }.

Inductive filled := FDone | FFail (e : cerr) | FGot (s : lstate).

(** 176-200: the loop, which ends with results, or when no data set is left *)
Fixpoint fill (n : nat) (props : list pname) (q : list (Z * text)) (offs : option Z) : option (nat * filled) :=
  match q with
  | [] => Some (n, FDone)
  | (depth, name) :: q' =>
    let* (_, r) := ask into_fs_list (fst (w n)) (snd (w n)) (QFsList name props offs) in
    match r with
    | CErr e => Some (S n, FFail e)
    | COk [] => fill (S n) props q' None
    | COk res => Some (S n, FGot (mkls offs q res depth))
    end
  end.

(** 201-210: one result is given out *)
Definition pop (s : lstate) : option (dsinfo * lstate) :=
  match ls_res s with
  | [] => None
  | i :: res =>
    let q := if 1 <? ls_depth s then ls_q s ++ [(ls_depth s - 1, di_name i)] else ls_q s in
    Some (i, mkls (Some (di_offs i)) q res (ls_depth s))
  end.

(** Collecting the stream of children up to the first error ([try_collect]), for
    at most [fuel] items *)
Inductive ending := More | Finished | Failed (e : cerr).
Fixpoint children (fuel : nat) (n : nat) (props : list pname) (s : lstate) : option (list dsinfo * ending) :=
  match fuel with
  | O => Some ([], More)
  | S fu =>
    let* (n, f) := match ls_res s with [] => fill n props (ls_q s) (ls_offs s) | _ => Some (n, FGot s) end in
    match f with
    | FDone => Some ([], Finished)
    | FFail e => Some ([], Failed e)
    | FGot s =>
      let* (i, s) := pop s in
      let* (l, x) := children fu n props s in
      Some (i :: l, x)
    end
  end.

(** 157-175, 211: the data set itself first, then those below it *)
Definition fs_list (fuel : nat) (name : text) (props : list pname) (offs : option Z) (depth : Z) : option (list dsinfo * ending) :=
  let* (_, r) := ask into_fs_stat (fst (w 0%nat)) (snd (w 0%nat)) (QFsStat name props) in
  match r with
  | CErr e => Some ([], Failed e)
  | COk i =>
    let* (l, x) := children fuel 1 props (mkls offs (if 0 <? depth then [(depth, name)] else []) [] (Z.max 0 (depth - 1))) in
    Some (i :: l, x)
  end.
End Daemon.

(** ** The controller's data sets *)

(** The errno numbers of FreeBSD, as far as they matter here *)
Definition errno (e : ferr) : Z := match e with ENOENT => 2 | EEXIST => 17 | EBUSY => 16 | EINVAL => 22 end.
Definition res_of {A B} (f : A -> B) (r : fres A) : rres B := match r with FOk x => ROk (f x) | FErr e => RErr (errno e) end.

Section Forest.
Context (H : text -> Z) (pool : text).
(** The value of a property of a data set that exists (C44) *)
Context (pv : db -> Z -> text -> pname -> property * psource).

(** controller.rs 259-322 *)
Definition ctl_list_fs (d : db) (name : text) (offs : option Z) : option (rres (list (text * Z))) :=
  match strip_pool_name pool name with
  | None => Some (RErr (errno ENOENT))
  | Some fsname =>
    let* r := list_fs H d fsname (match offs with Some o => o | None => 0 end) in
    Some (res_of (map (fun x : text * Z * Z => (match fst (fst x) with [] => name | c => name ++ SLASH :: c end, snd x))) r)
  end.

(** controller.rs 178-193 *)
Definition ctl_get_prop (d : db) (name : text) (n : pname) : option (rres (property * psource)) :=
  match strip_pool_name pool name with
  | None => Some (RErr (errno ENOENT))
  | Some fsname =>
    let* (_, oid) := lookup H (df d) fsname in
    Some (match oid with Some id => ROk (pv d id name n) | None => RErr (errno ENOENT) end)
  end.

(** [create_fs] and [destroy_fs], controller.rs 90-132 *)
Definition stripped {A} (d : db) (name : text) (f : text -> option (db * fres A)) : option (db * rres A) :=
  match strip_pool_name pool name with
  | None => Some (d, RErr (errno ENOENT))
  | Some fsname => let* (d, r) := f fsname in Some (d, res_of (fun x => x) r)
  end.

(** The rest of the controller is anything; of [K] only the parts that have
    nothing to do with data sets are kept. *)
Definition forest_controller (K : controller db) : controller db := {|
  k_drop_cache := k_drop_cache K;
  k_create_fs := fun d name => stripped d name (create_fs H d);
  k_destroy_fs := fun d name => stripped d name (destroy_fs H d);
  k_list_fs := ctl_list_fs;
  k_get_prop := ctl_get_prop;
  k_set_prop := k_set_prop K;
  k_mount := k_mount K;
  k_unmount := k_unmount K;
  k_clean := k_clean K;
  k_fault := k_fault K;
  k_attach := k_attach K;
  k_list_pool := k_list_pool K;
  k_status := k_status K
|}.
End Forest.
