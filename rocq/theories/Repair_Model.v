(** Model of the repair of a mirror's disk while the pool is in use
    (bfffs-core/src/cluster.rs [RepairMirrorTask], [repair_mirror],
    [repair_mirror_step]; bfffs-core/src/ddml/ddml.rs [MirrorRepairTask]).  The
    cluster is the model of FSM_Model.v.

    Simplifications: every operation of the cluster and every step of the repair
    is atomic, with its device operations done; no I/O error occurs.  The pool's
    other clusters are not touched by a repair and are left out. *)
From Verif Require Import Common ZMap FSM_Model FSM_Spec PrimeS_Model Zones_Model.

(** cluster.rs:221-236, [FreeSpaceMap::contains]. *)
Definition contains (f : fsm) (s : Z) : list Z :=
  filter (fun z => negb (zm_mem z (empties f)) && (s <? TXG_MAX)
                   && ((te_of f z >? s) || zm_mem z (opens f)))
         (zrange 0 (zlen (zones f))).

(** [zones[z].txgs.start] *)
Definition ts_of (f : fsm) (z : Z) : Z := match lget (zones f) z with Some x => ts x | None => 0 end.

(** cluster.rs:1108-1114: the key that the list is sorted by. *)
Definition key_leb (f : fsm) (a b : Z) : bool :=
  if ts_of f a =? ts_of f b then
    if te_of f a =? te_of f b then a <=? b else te_of f a <? te_of f b
  else ts_of f a <? ts_of f b.

Fixpoint insert_by (le : Z -> Z -> bool) (x : Z) (l : list Z) : list Z :=
  match l with
  | [] => [x]
  | y :: r => if le x y then x :: l else y :: insert_by le x r
  end.
(** A stable sort. *)
Definition sort_by (le : Z -> Z -> bool) (l : list Z) : list Z := fold_right (insert_by le) [] l.

Definition omax (l : list Z) : option Z :=
  match l with [] => None | x :: r => Some (fold_left Z.max r x) end.
Definition omin (l : list Z) : option Z :=
  match l with [] => None | x :: r => Some (fold_left Z.min r x) end.

(** cluster.rs:1098-1130, [order_zones_for_repair]: the zones, the highest end and
    the lowest start of an open zone. *)
Definition order_zones (f : fsm) (s : Z) (with_open : bool) : list Z * option Z * option Z :=
  let zs := sort_by (key_leb f) (filter (fun z => with_open || negb (is_open f z)) (contains f s)) in
  (zs, omax (map (te_of f) zs), omin (map (fun p => ts_of f (fst p)) (opens f))).

(** cluster.rs:817-841, [RepairMirrorTask] without the index of the mirror. *)
Record task := Task { t_init : Z; t_min_open : option Z; t_next : Z; t_zones : list Z }.

(** cluster.rs:1069-1088, [repair_mirror]; [txg] is the transaction of the label of
    the disk to be repaired (for a new disk, 0). *)
Definition repair_start (f : fsm) (txg : Z) : task :=
  let '(zs, mx, mo) := order_zones f txg false in
  Task txg mo (match mx with Some m => m + 1 | None => 0 end) zs.

(** What a step does to the disk: copy a zone, up to the write pointer if given,
    and write a label. *)
Record work := Work { w_copy : option (Z * option Z); w_label : option Z }.

(** cluster.rs:639-641, [write_pointer]. *)
Definition write_pointer (f : fsm) (z : Z) : option Z :=
  match zm_get z (opens f) with Some oz => Some (oalloc oz) | None => None end.

(** cluster.rs:1150-1160: the transaction that the disk's label could be raised to;
    [None] is the panic of indexing [zones] with the number of the next zone on the
    list, which may no longer be in the vector. *)
Definition want_txg (f : fsm) (z : Z) (rest : list Z) : option (option Z) :=
  match rest with
  | y :: _ => let* zy := lget (zones f) y in
              Some (if ts_of f z <? ts zy then Some (ts zy - 1) else None)
  | [] => Some (Some (te_of f z - 1))
  end.

(** cluster.rs:1163-1175. *)
Definition limit_txg (want min_open : option Z) (init : Z) : option Z :=
  let sync := match want, min_open with
              | Some x, Some y => if y >? x then Some x else None
              | Some x, None => Some x
              | None, _ => None
              end in
  match sync with Some x => if init >=? x then None else Some x | None => None end.

(** cluster.rs:1134-1209, [repair_mirror_step]; the [bool] is the result; [None] is a
    panic (see [want_txg]; or that of [checked_add]). *)
Definition repair_step (f : fsm) (t : task) (with_open : bool) : option (task * bool * work) :=
  match t_zones t with
  | z :: rest =>
    let t' := Task (t_init t) (t_min_open t) (t_next t) rest in
    if is_dead f z || is_empty f z then Some (t', true, Work None None) else
    let* want := want_txg f z rest in
    let sync := limit_txg want (t_min_open t) (t_init t) in
    let copy := match write_pointer f z with
                | Some wp => if wp =? 0 then None else Some (z, Some wp)
                | None => Some (z, None)
                end in
    Some (t', true, Work copy sync)
  | [] =>
    let '(zs, mx, mo) := order_zones f (t_next t) with_open in
    let more := match zs with [] => false | _ => true end in
    match mx with
    | Some m => oassert (m + 1 <? 2^32) (Some (Task (t_init t) mo (m + 1) zs, more, Work None None))
    | None => Some (Task (t_init t) mo (t_next t) zs, more, Work None None)
    end
  end.

(** ** The disk under repair *)

(** [good l]: block [l] of the disk under repair is the same as on the disks that
    are up to date.  Its label carries transaction [d_txg]. *)
Record disk := Disk { d_good : Z -> bool; d_txg : Z }.

Section Repair.
Context (v : vdev).

(** mirror.rs:187-285: while a disk is being rebuilt, the writes and erasures of the
    cluster go to the up-to-date disks only. *)
Definition disk_miss (d : disk) (o : vop) : disk :=
  match o with
  | VWrite z lba len => Disk (fun l => d_good d l && negb ((lba <=? l) && (l <? lba + len))) (d_txg d)
  | VErase z => Disk (fun l => d_good d l && negb ((fst (v_lim v z) <=? l) && (l <? snd (v_lim v z)))) (d_txg d)
  | _ => d
  end.

(** mirror.rs:671-735, [Mirror::repair_zone]: the zone, or its first [lbas] blocks,
    are copied (as for a pool without RAID, null_raid.rs:164-168). *)
Definition disk_work (d : disk) (w : work) : disk :=
  let g := match w_copy w with
           | Some (z, lbas) =>
             let s := fst (v_lim v z) in
             let e := match lbas with Some n => s + n | None => snd (v_lim v z) end in
             fun l => d_good d l || ((s <=? l) && (l <? e))
           | None => d_good d
           end in
  Disk g (match w_label w with Some x => x | None => d_txg d end).

(** Everything: the cluster, the extents its users hold, the disk, the task and
    whether the first phase of the repair is over. *)
Record world := World { w_c : cluster; w_live : list extent; w_disk : disk; w_task : task; w_done : bool }.

(** What can happen in the first phase (ddml.rs:102-117): an operation of the
    cluster, or a step of the repair. *)
Inductive event := EOp (op : cop) | EStep.

Definition wstep (w : world) (e : event) : option world :=
  match e with
  | EOp op =>
    match step v (w_c w) op with
    | Some (c', r, o) =>
      Some (World c' (live_next (w_live w) op r) (fold_left disk_miss o (w_disk w)) (w_task w) (w_done w))
    | None => None
    end
  | EStep =>
    if w_done w then None else
    match repair_step (fs (w_c w)) (w_task w) false with
    | Some (t', more, wk) =>
      Some (World (w_c w) (w_live w) (disk_work (w_disk w) wk) t' (negb more))
    | None => None
    end
  end.

(** ddml.rs:122-140, [finalize], with the pool locked: steps with the open zones
    included until there is nothing more to do. *)
Fixpoint finalize (fuel : nat) (w : world) : option world :=
  match fuel with
  | O => None
  | S n =>
    match repair_step (fs (w_c w)) (w_task w) true with
    | Some (t', more, wk) =>
      let w' := World (w_c w) (w_live w) (disk_work (w_disk w) wk) t' (w_done w) in
      if more then finalize n w' else Some w'
    | None => None
    end
  end.

End Repair.

(** ** RAID *)

(** vdev_raid.rs:2287-2315, [VdevRaid::repair_mirror_zone] for an open zone of which
    [lbas] blocks are allocated: how many blocks of the zone on disk [idx] are
    copied; [None] is "nothing to repair".  [fuel] bounds the iteration. *)
Definition raid_repair_lbas (fuel : nat) (L : layout) (cs idx lbas : Z) : option Z :=
  let m := lk L - lf L in
  let flushed := (lbas - lbas mod (cs * m)) / cs in
  let it := iter_new L (Data (Z.max 0 (flushed - ln L))) (Data flushed) in
  fold_left (fun acc p => if l_disk (snd p) =? idx then Some ((l_offset (snd p) + 1) * cs) else acc)
            (fst (iter_collect L fuel it)) None.
