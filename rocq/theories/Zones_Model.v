(** Model of the zone maps: how a file-backed disk divides itself into zones
    (bfffs-core/src/vdev_file.rs) and how declustered RAID derives its own zones
    from those of its disks (bfffs-core/src/raid/vdev_raid.rs).

    LBAs and zone numbers are unbounded [Z]: the code's u64/u32 wrap-around is not
    modelled.  A panic is [None]. *)
From Verif Require Import Common PrimeS_Model.

(** Rust's [u64::div_ceil] (core::num): the quotient, plus one when there is a
    remainder. *)
Definition div_ceil (a b : Z) : Z := if 0 <? a mod b then a / b + 1 else a / b.

(** ** vdev_file.rs *)

(** vdev_file.rs:140-149, [VdevFile]: the file descriptor and the erase method
    are left out.  [spacemap_space] is the one [VdevFile::set] (443-448) computes
    from the other two. *)
Record vfile := VF { vf_size : Z; vf_lpz : Z }.

(** label.rs:41, 44, 48. *)
Definition LABEL_COUNT : Z := 2.
Definition LABEL_LBAS : Z := 4.
Definition SPACEMAP_ZONES_PER_LBA : Z := 255.

(** label.rs:50-53, [spacemap_space]. *)
Definition spacemap_space (nzones : Z) : Z := div_ceil nzones SPACEMAP_ZONES_PER_LBA.

(** vdev_file.rs:178-180, [VdevFile::zones]. *)
Definition vf_zones (v : vfile) : Z := div_ceil (vf_size v) (vf_lpz v).

(** vdev_file.rs:429-431, [VdevFile::reserved_space], with the spacemap size from
    [set], 443-448. *)
Definition vf_reserved (v : vfile) : Z :=
  LABEL_COUNT * (LABEL_LBAS + spacemap_space (div_ceil (vf_size v) (vf_lpz v))).

(** vdev_file.rs:152-158, [VdevFile::lba2zone]. *)
Definition vf_lba2zone (v : vfile) (lba : Z) : option Z :=
  if lba >=? vf_reserved v then Some (lba / vf_lpz v) else None.

(** vdev_file.rs:169-176, [VdevFile::zone_limits]. *)
Definition vf_zone_limits (v : vfile) (zone : Z) : Z * Z :=
  if zone =? 0 then (vf_reserved v, vf_lpz v)
  else (zone * vf_lpz v, (zone + 1) * vf_lpz v).

(** ** vdev_raid.rs *)

(** vdev_raid.rs:1928-1937, [min_max]. *)
Definition min_max (l : list Z) : option (Z * Z) :=
  fold_left (fun acc i => match acc with
                          | Some (a, b) => Some (Z.min a i, Z.max b i)
                          | None => Some (i, i)
                          end) l None.

Section Raid.
Context (L : layout) (cs : Z).

(** vdev_raid.rs:1987-1988, [m]. *)
Definition zm : Z := lk L - lf L.

(** vdev_raid.rs:1998-2002: the stripe stored in row [boundary] of disk [i];
    [None] if [loc2id] panics. *)
Definition stripe_at (boundary i : Z) : option Z :=
  match loc2id L (Loc i boundary) with Some c => Some (address c / zm) | None => None end.

Fixpoint sequence {A} (l : list (option A)) : option (list A) :=
  match l with
  | [] => Some []
  | Some x :: r => match sequence r with Some r' => Some (x :: r') | None => None end
  | None :: _ => None
  end.

(** vdev_raid.rs:2010-2021: does the inner loop over the chunks of [stripe] leave
    through a [continue 'stripe_loop]?  The chunks are those the locator's
    iterator returns between the two data chunks.  (The fuel of the collection is
    the number of chunks in a stripe plus one.) *)
Definition crosses (boundary : Z) (high : bool) (stripe : Z) : bool :=
  existsb (fun cl => if high then l_offset (snd cl) >? boundary else l_offset (snd cl) <? boundary)
    (fst (iter_collect L (S (Z.to_nat (lk L)))
            (iter_new L (Data (stripe * zm)) (Data ((stripe + 1) * zm))))).

(** vdev_raid.rs:2007-2025, the body of ['stripe_loop]. *)
Definition stripe_step (boundary : Z) (high : bool) (inner : option Z) (stripe : Z) : option Z :=
  if crosses boundary high stripe then (if high then inner else None)
  else match inner with
       | None => Some stripe
       | Some s => if high then Some stripe else Some s
       end.

(** vdev_raid.rs:1996-2034, the closure [endpoint_lba].  [None] is the
    assertion's panic. *)
Definition endpoint_lba (boundary : Z) (high : bool) : option Z :=
  match sequence (map (stripe_at boundary) (zrange 0 (ln L))) with
  | None => None
  | Some ss =>
    match min_max ss with
    | None => None
    | Some (mn, mx) =>
      match fold_left (stripe_step boundary high) (zrange mn (mx + 1)) None with
      | None => None
      | Some s => Some ((if high then s + 1 else s) * zm * cs)
      end
    end
  end.

(** vdev_raid.rs:1986-2038, [VdevRaid::zone_limits], given the zone limits of the
    first healthy disk.  [None] also when [disk_lba_e / chunksize - 1] would
    underflow. *)
Definition raid_zone_limits (dl : Z -> Z * Z) (zone : Z) : option (Z * Z) :=
  let '(b, e) := dl zone in
  if e / cs =? 0 then None
  else
    match endpoint_lba (div_ceil b cs) false, endpoint_lba (e / cs - 1) true with
    | Some lo, Some hi => Some (lo, hi)
    | _, _ => None
    end.

(** vdev_raid.rs:1940-1956, [VdevRaid::lba2zone].  All disks have the same zone
    map (vdev_raid.rs:1990), so which present disk is asked does not matter.
    [None] is a panic; [Some None] the answer [None]. *)
Definition raid_lba2zone (dl : Z -> Z * Z) (dz : Z -> option Z) (lba : Z) : option (option Z) :=
  let loc := id2loc L (Data (lba / cs)) in
  match dz (l_offset loc * cs) with
  | None => Some None
  | Some t =>
    match raid_zone_limits dl t with
    | None => None
    | Some (lo, hi) => Some (if (lba >=? lo) && (lba <? hi) then Some t else None)
    end
  end.

(** vdev_raid.rs:762-771: the loop that looks for the first row of disk [idx]
    that belongs to the zone, starting with [chunk]; [fuel] bounds the rows
    tried. *)
Fixpoint first_usable (fuel : nat) (start_lba idx chunk : Z) : option Z :=
  match fuel with
  | O => None
  | S fu =>
    match loc2id L (Loc idx chunk) with
    | None => None
    | Some c => if address c * cs >=? start_lba then Some (chunk * cs)
                else first_usable fu start_lba idx (chunk + 1)
    end
  end.

(** vdev_raid.rs:757-785, [open_zone_priv]: the disk LBAs [from, to) zero-filled
    on disk [idx] when a new zone is opened (empty if from >= to).  [None] is
    a panic, or [fuel] too small. *)
Definition open_zone_fill (fuel : nat) (dl : Z -> Z * Z) (zone idx : Z) : option (Z * Z) :=
  match raid_zone_limits dl zone with
  | None => None
  | Some (start_lba, _) =>
    let first_disk_lba := fst (dl zone) in
    match first_usable fuel start_lba idx (div_ceil first_disk_lba cs) with
    | None => None
    | Some u => Some (first_disk_lba, Z.max first_disk_lba u)
    end
  end.

End Raid.
