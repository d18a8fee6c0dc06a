(** Model of how a pool is put together from the disks that carry it: the managers that taste disks and import pools
    (bfffs-core/src/database/mod.rs, idml/mod.rs, ddml/mod.rs, pool.rs, cluster.rs, raid/mod.rs, mirror.rs, vdev_block.rs: [Manager]), the functions
    [open] that they use, and how the list of a mirror's disks changes (mirror.rs [attach], [write_label]).

    UUIDs are integers; a panic is [None]; a device that blocks forever is said so where it happens.  Simplified: every disk of a mirror has the
    same size and zones (mirror.rs:360 and 458 refuse others); [Cluster::open], which reads the space map from the opened devices, succeeds; a
    disk's label can be read again at import if it could be when the disk was tasted, and says the same (the disk is locked meanwhile). *)
From Verif Require Import Common ZMap FSM_Model Prop_Model.

(** ** Labels *)

(** mirror.rs:58-63, [Label] *)
Record mlabel := MLabel { ml_uuid : Z; ml_children : list Z }.
(** raid/mod.rs:54-58, [Label]: [rl_null] tells a NullRaid, whose list of children has one element, from a RAID device.  The other fields of the
    latter's label do not matter here. *)
Record rlabel := RLabel { rl_null : bool; rl_uuid : Z; rl_children : list Z }.
(** pool.rs:61-71, [Label] *)
Record plabel := PLabel { pl_name : text; pl_uuid : Z; pl_children : list Z }.
(** What the label of a disk says (vdev_block.rs [Label], followed by the labels of the mirror, of the RAID device and of the pool). *)
Record label := Label { l_uuid : Z; l_txg : Z; l_mirror : mlabel; l_raid : rlabel; l_pool : plabel }.

(** ** Opened devices *)

(** mirror.rs:136-142, [Child], as far as [open] makes them *)
Inductive child := CPresent (d : label) | CMissing | CRebuilding (d : label).
(** mirror.rs, [Mirror] *)
Record mirror := Mirror { m_uuid : Z; m_children : list (Z * child) }.
(** raid/mod.rs:143-149, [RaidImpl]; a member of a RAID device may be missing *)
Inductive raid := Null (u : Z) (m : mirror) | Raid (u : Z) (ms : list (Z * option mirror)).
Definition r_uuid (r : raid) : Z := match r with Null u _ | Raid u _ => u end.
(** pool.rs, [Pool] *)
Record pool := Pool { p_name : text; p_uuid : Z; p_clusters : list raid }.

(** ** Managers *)

(** vdev_block.rs:1194-1196, mirror.rs:67-70, raid/mod.rs:90-93, pool.rs:75-78: each manager owns the one below it.  An [ImportableLeaf] (an open
    file and its path) is represented by what its label says. *)
Record mgr := Mgr { g_devices : list (Z * label); g_mirrors : list (Z * mlabel); g_raids : list (Z * rlabel); g_pools : list (Z * plabel) }.

Definition mgr0 : mgr := Mgr [] [] [] [].

(** vdev_block.rs:1250-1266, mirror.rs:111-116, raid/mod.rs:135-140, cluster.rs:1328-1330, pool.rs:122-127, and the managers above it, [taste]: the
    disk is opened and its label read ([None]: that fails, and nothing is kept).  Tasting a device that is already held blocks forever (O_EXLOCK);
    that is left out. *)
Definition taste (g : mgr) (d : option label) : mgr :=
  match d with
  | None => g
  | Some l => Mgr (zm_set (l_uuid l) l (g_devices g)) (zm_set (ml_uuid (l_mirror l)) (l_mirror l) (g_mirrors g))
                  (zm_set (rl_uuid (l_raid l)) (l_raid l) (g_raids g)) (zm_set (pl_uuid (l_pool l)) (l_pool l) (g_pools g))
  end.

(** pool.rs:111-116, [importable_pools] *)
Definition importable (g : mgr) : list (text * Z) := map (fun p => (pl_name (snd p), pl_uuid (snd p))) (g_pools g).

(** The only error there is: ENOENT. *)
Inductive res (A : Type) := Got (a : A) | ENOENT.
Arguments Got {A}. Arguments ENOENT {A}.

Fixpoint gots {A} (l : list (res A)) : list A :=
  match l with [] => [] | Got a :: r => a :: gots r | ENOENT :: r => gots r end.

(** vdev_block.rs:1200-1212, [import] *)
Definition import_leaf (g : mgr) (u : Z) : mgr * res label :=
  match zm_get u (g_devices g) with
  | None => (g, ENOENT)
  | Some l => (Mgr (zm_del u (g_devices g)) (g_mirrors g) (g_raids g) (g_pools g), Got l)
  end.

Fixpoint import_leaves (g : mgr) (us : list Z) : mgr * list (res label) :=
  match us with
  | [] => (g, [])
  | u :: r => let (g, x) := import_leaf g u in let (g, xs) := import_leaves g r in (g, x :: xs)
  end.

(** mirror.rs:521-531, the loop of [Mirror::open] over the children that the label lists: [leaves.remove] *)
Fixpoint open_children (highest : Z) (leaves : list (Z * label)) (us : list Z) : list (Z * child) :=
  match us with
  | [] => []
  | u :: r =>
    (u, match zm_get u leaves with
        | Some d => if l_txg d =? highest then CPresent d else CRebuilding d
        | None => CMissing
        end) :: open_children highest (zm_del u leaves) r
  end.

Definition is_present (c : Z * child) : bool := match snd c with CPresent _ => true | _ => false end.

(** The map that collects pairs (mirror.rs:506-517, raid/mod.rs:204-215, pool.rs:387-397) *)
Definition collect {A} (f : A -> Z) (l : list A) : list (Z * A) := fold_left (fun m a => zm_set (f a) a m) l [].

(** An assertion *)
Definition check (b : bool) : option unit := if b then Some tt else None.

(** mirror.rs:498-533, [Mirror::open], with [Mirror::new] (449-488), which panics unless some child is present.  [ds] is not empty. *)
Definition mirror_open (u : Z) (ds : list label) : option (mirror * label) :=
  let highest := fold_right Z.max 0 (map l_txg ds) in
  let* _ := check (forallb (fun d => ml_uuid (l_mirror d) =? u) ds) in
  let* l := find (fun d => l_txg d =? highest) ds in
  let cs := open_children highest (collect l_uuid ds) (ml_children (l_mirror l)) in
  let* _ := check (existsb is_present cs) in
  Some (Mirror (ml_uuid (l_mirror l)) cs, l).

(** In which order the children of a device finish being imported ([FuturesUnordered], mirror.rs:84, raid/mod.rs:107, pool.rs:91): for the device
    with a given UUID and the results of its children in the order of the label, the results in the order in which they arrive. *)
Record timing := Timing { t_leaves : Z -> list (res label) -> list (res label);
                          t_mirrors : Z -> list (res (mirror * label)) -> list (res (mirror * label));
                          t_clusters : Z -> list (res (raid * label)) -> list (res (raid * label)) }.

Section Import.
Context (T : timing).

(** mirror.rs:76-105, [import] *)
Definition import_mirror (g : mgr) (u : Z) : option (mgr * res (mirror * label)) :=
  match zm_get u (g_mirrors g) with
  | None => Some (g, ENOENT)
  | Some ml =>
    let g := Mgr (g_devices g) (zm_del u (g_mirrors g)) (g_raids g) (g_pools g) in
    let (g, rs) := import_leaves g (ml_children ml) in
    match gots (t_leaves T u rs) with
    | [] => Some (g, ENOENT)
    | ds => let* r := mirror_open u ds in Some (g, Got r)
    end
  end.

Fixpoint import_mirrors (g : mgr) (us : list Z) : option (mgr * list (res (mirror * label))) :=
  match us with
  | [] => Some (g, [])
  | u :: r => let* (g, x) := import_mirror g u in let* (g, xs) := import_mirrors g r in Some (g, x :: xs)
  end.

(** raid/vdev_raid.rs:716-726, the children of [VdevRaid::open].  A mirror that could be opened is not faulted: one of its disks is present. *)
Fixpoint open_members (ms : list (Z * (mirror * label))) (us : list Z) : list (Z * option mirror) :=
  match us with
  | [] => []
  | u :: r => (u, match zm_get u ms with Some (m, _) => Some m | None => None end) :: open_members (zm_del u ms) r
  end.

(** raid/mod.rs:198-224, [open], with [NullRaid::open] (null_raid.rs:67-72) and [VdevRaid::open] (vdev_raid.rs:713-735).  The assertion that there are
    enough members (727) counts the missing ones too, so it holds for every label that was ever written and is left out; [VdevRaid::new] (653-661)
    panics unless some member is there. *)
Definition raid_open (u : Z) (ps : list (mirror * label)) : option (raid * label) :=
  let* _ := check (forallb (fun p => rl_uuid (l_raid (snd p)) =? u) ps) in
  let ms := collect (fun p => m_uuid (fst p)) ps in
  match ps with
  | [] => None
  | (_, l) :: _ =>
    if rl_null (l_raid l)
    then match ms with [(_, (m, _))] => Some (Null (rl_uuid (l_raid l)) m, l) | _ => None end
    else let cs := open_members ms (rl_children (l_raid l)) in
         let* _ := check (existsb (fun c => match snd c with Some _ => true | None => false end) cs) in
         Some (Raid (rl_uuid (l_raid l)) cs, l)
  end.

(** raid/mod.rs:99-129, [import]; cluster.rs:1315-1322 adds [Cluster::open] *)
Definition import_cluster (g : mgr) (u : Z) : option (mgr * res (raid * label)) :=
  match zm_get u (g_raids g) with
  | None => Some (g, ENOENT)
  | Some rl =>
    let g := Mgr (g_devices g) (g_mirrors g) (zm_del u (g_raids g)) (g_pools g) in
    let* (g, rs) := import_mirrors g (rl_children rl) in
    match gots (t_mirrors T u rs) with
    | [] => Some (g, ENOENT)
    | ps => let* r := raid_open u ps in Some (g, Got r)
    end
  end.

Fixpoint import_clusters (g : mgr) (us : list Z) : option (mgr * list (res (raid * label))) :=
  match us with
  | [] => Some (g, [])
  | u :: r => let* (g, x) := import_cluster g u in let* (g, xs) := import_clusters g r in Some (g, x :: xs)
  end.

(** pool.rs:401-403, the clusters in the order of the label: [all_clusters.remove(uuid).unwrap()] *)
Fixpoint open_clusters (cs : list (Z * (raid * label))) (us : list Z) : option (list raid) :=
  match us with
  | [] => Some []
  | u :: r => let* (c, _) := zm_get u cs in let* t := open_clusters (zm_del u cs) r in Some (c :: t)
  end.

(** pool.rs:383-405, [Pool::open] *)
Definition pool_open (u : Z) (ps : list (raid * label)) : option (pool * label) :=
  let* _ := check (forallb (fun p => pl_uuid (l_pool (snd p)) =? u) ps) in
  let cs := collect (fun p => r_uuid (fst p)) ps in
  match ps with
  | [] => None
  | (_, l) :: _ =>
    let* _ := check (zlen cs =? zlen (pl_children (l_pool l))) in
    let* t := open_clusters cs (pl_children (l_pool l)) in
    Some (Pool (pl_name (l_pool l)) (pl_uuid (l_pool l)) t, l)
  end.

Definition is_err {A} (r : res A) : bool := match r with ENOENT => true | Got _ => false end.

(** pool.rs:83-108, [import], and database/mod.rs:432-440: the database is opened with the rest of the label that [Pool::open] gives *)
Definition import (g : mgr) (u : Z) : option (mgr * res (pool * label)) :=
  match zm_get u (g_pools g) with
  | None => Some (g, ENOENT)
  | Some pl =>
    let g := Mgr (g_devices g) (g_mirrors g) (g_raids g) (zm_del u (g_pools g)) in
    let* (g, rs) := import_clusters g (pl_children pl) in
    if existsb is_err rs then Some (g, ENOENT)
    else let* r := pool_open u (gots (t_clusters T u rs)) in Some (g, Got r)
  end.

(** database/mod.rs:443-458, [import_by_name] *)
Definition import_by_name (g : mgr) (n : text) : option (mgr * res (pool * label)) :=
  match find (fun p => text_eqb (fst p) n) (importable g) with
  | Some (_, u) => import g u
  | None => Some (g, ENOENT)
  end.

End Import.

(** ** The disks of a mirror over time *)

(** A disk of a mirror: whether it is in use, being rebuilt, or faulted, and what its label says about the mirror and the transaction; a new disk
    has no label. *)
Inductive dstate := DUse | DRebuild | DFault.
Record mdisk := MDisk { d_uuid : Z; d_state : dstate; d_label : option (Z * list Z) }.

Inductive mop :=
| MSync (txg : Z)      (* mirror.rs:825-845, 263-269: [write_label] writes to the disks in use; the label lists all *)
| MFault (u : Z)       (* mirror.rs:191-199 *)
| MAttach (u : Z)      (* mirror.rs:350-368: refused while a disk is being rebuilt *)
| MRebuilt (txg : Z).  (* the end of a repair: the label is written to the disk (mirror.rs:271-276), which is then in use (232-240) *)

Definition is_rebuild (d : mdisk) : bool := match d_state d with DRebuild => true | _ => false end.

Definition mstep (ds : list mdisk) (o : mop) : list mdisk :=
  let us := map d_uuid ds in
  match o with
  | MSync t => map (fun d => match d_state d with DUse => MDisk (d_uuid d) DUse (Some (t, us)) | _ => d end) ds
  | MFault u => map (fun d => if d_uuid d =? u then MDisk u DFault (d_label d) else d) ds
  | MAttach u => if existsb is_rebuild ds then ds else ds ++ [MDisk u DRebuild None]
  | MRebuilt t => map (fun d => match d_state d with DRebuild => MDisk (d_uuid d) DUse (Some (t, us)) | _ => d end) ds
  end.

(** A pool of one mirror: what tasting a disk of it finds. *)
Definition disk_label (name : text) (p r m : Z) (d : mdisk) : option label :=
  let* (t, us) := d_label d in
  Some (Label (d_uuid d) t (MLabel m us) (RLabel true r [m]) (PLabel name p [r])).
