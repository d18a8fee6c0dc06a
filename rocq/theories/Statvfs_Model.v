(** The size of a RAID device and the free space that statvfs reports: bfffs-core/src/raid/vdev_raid.rs, pool.rs and fs.rs. *)
From Verif Require Import Common FSM_Model PrimeS_Model Zones_Model Pool_Model.

(** vdev_raid.rs:684-686, the size of a RAID device from that of its disks *)
Definition raid_size (L : layout) (cs child_size : Z) : Z :=
  let disk_size_in_chunks := child_size / cs in
  disk_size_in_chunks * datachunks L * cs / depth L.

(** pool.rs:144-146 Stats::size *)
Definition pool_size (gs : list cgeo) : Z := fold_right Z.add 0 (map cg_size gs).
(** fs.rs:2327-2350 statvfs: the number of blocks, and of free blocks.  The subtraction wraps, as it does without overflow checks (with them it
    panics).  The two reads are joined; that other requests come between them is not modelled (the size does not change). *)
Definition statvfs (gs : list cgeo) (p : pool) : Z * Z :=
  let blocks := pool_size gs in
  let used := p_used p in
  (blocks, (blocks - used) mod 2^64).
