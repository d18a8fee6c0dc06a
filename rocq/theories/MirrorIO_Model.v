(** Reading, writing and repairing a mirror whose disks can fail: bfffs-core/src/mirror.rs.

    Simplifications: a disk is its state in the mirror (Vdev_Model) and the contents of its blocks; whether a request to a disk fails is
    an input.  Requests are handled one after the other. *)
From Verif Require Import Common Vdev_Model.

Section Mirror.
Context {D : Type}.

Record disk := Disk { d_leaf : leaf; d_blk : Z -> D }.
Definition leaves (s : list disk) : mirror := map d_leaf s.

(** blocks [lba], [lba + 1], ... become [buf] *)
Definition put_range (lba : Z) (buf : list D) (f : Z -> D) : Z -> D :=
  fun l => if (lba <=? l) && (l <? lba + zlen buf) then nth (Z.to_nat (l - lba)) buf (f l) else f l.
Definition get_range (lba : Z) (len : nat) (f : Z -> D) : list D := map (fun k => f (lba + Z.of_nat k)) (seq 0 len).

(** what becomes of one disk's part of a write.  [Lost]: it failed, or was dropped because another disk's part failed
    (try_collect returns at the first error); the disk's blocks may then hold anything. *)
Inductive outcome := Stored | Lost (junk : Z -> D).
Definition write_disk (lba : Z) (buf : list D) (o : outcome) (d : disk) : disk :=
  if leaf_present (d_leaf d)    (* mirror.rs:259-261 Child::write_at *)
  then Disk (d_leaf d) (match o with
                        | Stored => put_range lba buf (d_blk d)
                        | Lost junk => fun l => if (lba <=? l) && (l <? lba + zlen buf) then junk l else d_blk d l
                        end)
  else d.
Fixpoint write_disks (lba : Z) (buf : list D) (i : nat) (outs : nat -> outcome) (s : list disk) : list disk :=
  match s with [] => [] | d :: r => write_disk lba buf (outs i) d :: write_disks lba buf (S i) outs r end.
(** mirror.rs:815-823 write_at, 859-867 writev_at: to every present disk; it succeeds if no part of it fails *)
Fixpoint all_stored (i : nat) (outs : nat -> outcome) (s : list disk) : bool :=
  match s with
  | [] => true
  | d :: r => (negb (leaf_present (d_leaf d)) || match outs i with Stored => true | Lost _ => false end) && all_stored (S i) outs r
  end.
Definition write_at (s : list disk) (lba : Z) (buf : list D) (outs : nat -> outcome) : list disk * bool :=
  (write_disks lba buf 0 outs s, all_stored 0 outs s).

Inductive error := EIO | ENXIO.
(** mirror.rs:544-555 read_at, 902-930 ReadAt::poll, by Vdev_Model.mirror_read; [idx] is the counter next_read_idx, [bad] the disks that cannot read
    the range *)
Definition read_at (s : list disk) (lba : Z) (len : nat) (idx : Z) (bad : nat -> bool) : list D + error :=
  fst (mirror_read ENXIO (leaves s) idx (fun i => if bad i then inr EIO else
    match nth_error s i with Some d => inl (get_range lba len (d_blk d)) | None => inr EIO end)).

(** mirror.rs:416-424 fault *)
Fixpoint fault_at (s : list disk) (j : nat) : list disk :=
  match s, j with
  | [], _ => []
  | d :: r, O => Disk (leaf_fault (d_leaf d)) (d_blk d) :: r
  | d :: r, S j => d :: fault_at r j
  end.

(** mirror.rs:671-735 repair_zone, of the blocks from [start] to [end_].  The reader takes the present disks in turn, [bs] blocks at a time (64 in the
    code), and gives up at the first error; the writer writes each buffer to the disks being rebuilt.  [readerr]: disk and address; [fuel] bounds the
    number of buffers.  [wlba] is the writer's own address.  None is a panic: division by zero without a disk to read.  The reader may be one buffer ahead
    of the writer in the code; that changes nothing on disk.  A failing write is left out. *)
Definition write_rebuilding (lba : Z) (buf : list D) (d : disk) : disk :=
  if leaf_rebuilding (d_leaf d) then Disk (d_leaf d) (put_range lba buf (d_blk d)) else d.
Fixpoint repair_loop (bs : Z) (readers : list nat) (readerr : nat -> Z -> bool) (fuel : nat) (start end_ wlba idx : Z) (s : list disk) : option (list disk * bool) :=
  match fuel with
  | O => None
  | S fuel =>
      if start <? end_ then
        match readers with
        | [] => None
        | _ =>
            let r := nth (Z.to_nat (idx mod zlen readers)) readers 0%nat in
            if readerr r start then Some (s, false)
            else match nth_error s r with
                 | None => None
                 | Some d =>
                     let buf := get_range start (Z.to_nat (Z.min bs (end_ - start))) (d_blk d) in
                     repair_loop bs readers readerr fuel (start + bs) end_ (wlba + bs) (idx + 1) (map (write_rebuilding wlba buf) s)
                 end
        end
      else Some (s, true)
  end.
Definition indices (p : leaf -> bool) (s : list disk) : list nat :=
  filter (fun i => match nth_error s i with Some d => p (d_leaf d) | None => false end) (seq 0 (length s)).
(** the zone's limits are those of the first present disk: without one, first_present_child panics (mirror.rs:440-447) *)
Definition repair_zone (bs : Z) (s : list disk) (start end_ idx : Z) (readerr : nat -> Z -> bool) : option (list disk * bool) :=
  match indices leaf_present s with
  | [] => None
  | readers => if existsb (fun d => leaf_rebuilding (d_leaf d)) s
               then repair_loop bs readers readerr (Z.to_nat (end_ - start) + 1) start end_ start idx s
               else Some (s, true)
  end.
End Mirror.
Arguments disk : clear implicits.
Arguments outcome : clear implicits.
