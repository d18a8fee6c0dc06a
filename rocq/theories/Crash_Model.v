(** Crashes: one cluster, its free-space map, the labels, and what the disks hold
    (database/database.rs [sync_transaction_priv], idml/idml.rs
    [advance_transaction], cluster.rs).

    A pool here is one cluster (FSM_Model.v).  A label is represented by what its
    trees refer to: the list of extents, each with the number of the write that
    filled it.  What the trees look like does not matter.  The labels' bytes are
    the subject of C46 and C68; here a label that was being written in a crash is
    readable or not.  The disks may lose, or mangle, whatever was written since
    the last [sync_all]. *)
From Verif Require Import Common ZMap FSM_Model FSM_Spec.

(** An extent and the write that filled it. *)
Definition item := (extent * Z)%type.

(** Where the sync is (database.rs 721-767, idml.rs 478-484).  [Idle]: it is not
    running, or it is still flushing trees. *)
Inductive phase :=
| Idle
| Sm0Done      (* space map 0 written: database.rs 752 *)
| Label0Done   (* [sync_all] and label 0: database.rs 753-756 *)
| Sm1Done      (* space map 1, [sync_all]: database.rs 757-764 *)
| Label1Done.  (* label 1, [sync_all]: database.rs 765-766 *)

Record pool := mkpool {
  cl : cluster;
  live : list item;              (* what the trees in memory refer to *)
  label0 : option (list item);   (* [None]: unreadable *)
  label1 : option (list item);
  ph : phase;
  data : Z -> option Z;          (* for each LBA the write that filled it *)
  vol : list extent;             (* LBAs that changed since the last [sync_all] *)
  count : Z                      (* number of writes so far *)
}.

Definition within (l : Z) (e : extent) : bool := (fst e <=? l) && (l <? fst e + snd e).
Definition fill (d : Z -> option Z) (e : extent) (x : option Z) : Z -> option Z := fun l => if within l e then x else d l.

Fixpoint remove_item (e : extent) (l : list item) : list item :=
  match l with
  | [] => []
  | x :: r => if extent_eqb e (fst x) then r else x :: remove_item e r
  end.

Inductive pop :=
| PWrite (space txg : Z)
| PFree (lba len : Z)
| PSm0
| PLabel0
| PSm1
| PLabel1
| PAdvance
(** A crash, and a mount.  [d]: what is on the disks then; [torn]: the label that
    was being written is unreadable. *)
| PCrash (d : Z -> option Z) (torn : bool)
(** A crash while space map 0 is written: of the blocks written only [bs] reach
    the disk. *)
| PCrashSm0 (bs : list Z) (d : Z -> option Z).

Section Pool.
Context (v : vdev).

(** cluster.rs 954-958, vdev_raid.rs 2135-2158: flushing pads the open zones. *)
Definition padding (c : cluster) : list extent :=
  map (fun p => (ostart (snd p) + oalloc (snd p), gap_of v (oalloc (snd p)))) (opens (fs c)).

Definition zone_extent (z : Z) : extent := (fst (v_lim v z), snd (v_lim v z) - fst (v_lim v z)).

Definition erased (o : list vop) : list extent :=
  concat (map (fun x => match x with VErase z => [zone_extent z] | _ => [] end) o).

Definition blank (d : Z -> option Z) (es : list extent) : Z -> option Z := fold_left (fun d e => fill d e None) es d.

(** A pool as formatted: [Cluster::create]. *)
Definition pool_create : pool := mkpool (cluster_create v) [] None None Idle (fun _ => None) [] 0.

(** vdev_block.rs 1215-1243: label 0 if it can be read, else label 1; then
    cluster.rs 1036-1040. *)
Definition mount (c : cluster) (l0 l1 : option (list item)) (d : Z -> option Z) (n : Z) : option pool :=
  let* l := (match l0 with Some l => Some l | None => l1 end) in
  let* (c, _) := reopen v c in
  Some (mkpool c l l0 l1 Idle d [] n).

(** [None]: a panic, or the pool cannot be mounted. *)
Definition pdo (p : pool) (op : pop) : option pool :=
  match op with
  | PWrite space txg =>
    let* (c, r, _) := write v space txg (cl p) in
    match r with
    | WOk lba => Some (mkpool c (((lba, space), count p) :: live p) (label0 p) (label1 p) (ph p)
                         (fill (data p) (lba, space) (Some (count p))) ((lba, space) :: vol p) (count p + 1))
    | WNoSpace => Some (mkpool c (live p) (label0 p) (label1 p) (ph p) (data p) (vol p) (count p))
    end
  | PFree lba len =>
    let* c := free v lba len (cl p) in
    Some (mkpool c (remove_item (lba, len) (live p)) (label0 p) (label1 p) (ph p) (data p) (vol p) (count p))
  | PSm0 =>
    let* (c, _) := flush v 0 (cl p) in
    Some (mkpool c (live p) (label0 p) (label1 p) Sm0Done (blank (data p) (padding (cl p))) (padding (cl p) ++ vol p) (count p))
  | PLabel0 => Some (mkpool (cl p) (live p) (Some (live p)) (label1 p) Label0Done (data p) [] (count p))
  | PSm1 =>
    let* (c, _) := flush v 1 (cl p) in
    Some (mkpool c (live p) (label0 p) (label1 p) Sm1Done (blank (data p) (padding (cl p))) (padding (cl p)) (count p))
  | PLabel1 => Some (mkpool (cl p) (live p) (label0 p) (Some (live p)) Label1Done (data p) [] (count p))
  | PAdvance =>                                                       (* cluster.rs 988-998 *)
    let (c, o) := advance (cl p) in
    Some (mkpool c (live p) (label0 p) (label1 p) Idle (blank (data p) (erased o)) (erased o) (count p))
  | PCrash d torn =>
    mount (cl p)
      (if torn then match ph p with Sm0Done => None | _ => label0 p end else label0 p)
      (if torn then match ph p with Sm1Done => None | _ => label1 p end else label1 p) d (count p)
  | PCrashSm0 bs d =>
    let* (c, _) := flush v 0 (cl p) in
    mount (mkcl (fs c) (alloc_space c) (fun i b => if (i =? 0) && existsb (Z.eqb b) bs then sm c i b else sm (cl p) i b))
      (label0 p) (label1 p) d (count p)
  end.

Fixpoint pruns (p : pool) (ops : list pop) : option pool :=
  match ops with
  | [] => Some p
  | op :: ops => let* p := pdo p op in pruns p ops
  end.

End Pool.
