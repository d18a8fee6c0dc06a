(** Contents of a regular file: fs.rs (Uio, read, write, deallocate, setattr, lseek) over the part of the file system tree
    that holds one file's extents and inode.

    Simplifications, for the whole file:
    - the tree is a map (C27, C29) from the offset of an extent to the extent.  Keys of other objects and other kinds are
      left out, as is the packing of offsets into keys; C32 shows that keys do not interfere for offsets below 2^56.
    - u64/usize are integers.  With all offsets at most 2^56 no sum or product below reaches 2^64.
    - futures that are joined touch different keys; they are run one after the other.
    - credit, timestamps, uid, gid, permissions and flags are left out; storage never fails.
    - [None] is a panic. *)
From Verif Require Import Common ZMap.

(** fs_tree.rs:1096-1160 Extent, InlineExtent and BlobExtent.  A byte is an integer. *)
Inductive extent := Inline (buf : list Z) | Blob (rid lsize : Z).

(** fs_tree.rs:1097 Extent::len, fs_tree.rs:1344 stat_space *)
Definition ext_len (e : extent) : Z := match e with Inline b => zlen b | Blob _ l => l end.

(** A file system transaction's view: the extents of the file by offset; the blobs stored in the DML by record id; the id
    the DML gives the next blob; ids whose blobs were deleted, in order (only to state that none is freed twice). *)
Record ds := Ds { d_ext : list (Z * extent); d_blobs : list (Z * list Z); d_next : Z; d_freed : list Z }.

(** fs_tree.rs:1413-1422 FSValue::dpop of an extent: a blob is read and deleted; dml.pop of an unknown id cannot succeed. *)
Definition dpop (d : ds) (e : extent) : option (ds * list Z) :=
  match e with
  | Inline b => Some (d, b)
  | Blob r _ =>
      match zm_get r (d_blobs d) with
      | Some b => Some (Ds (d_ext d) (zm_del r (d_blobs d)) (d_next d) (d_freed d ++ [r]), b)
      | None => None
      end
  end.
(** fs_tree.rs:1388-1396 FSValue::ddrop of an extent *)
Definition ddrop (d : ds) (e : extent) : option ds :=
  match e with
  | Inline _ => Some d
  | Blob r _ =>
      match zm_get r (d_blobs d) with
      | Some _ => Some (Ds (d_ext d) (zm_del r (d_blobs d)) (d_next d) (d_freed d ++ [r]))
      | None => None
      end
  end.
(** tree/node.rs:410-458 LeafNode::insert of a value; the old value is popped *)
Definition ds_insert (d : ds) (k : Z) (b : list Z) : option (ds * option (list Z)) :=
  let d' := Ds (zm_set k (Inline b) (d_ext d)) (d_blobs d) (d_next d) (d_freed d) in
  match zm_get k (d_ext d) with
  | None => Some (d', None)
  | Some e => match dpop d' e with Some (d2, o) => Some (d2, Some o) | None => None end
  end.
(** tree/node.rs:537-561 LeafNode::remove *)
Definition ds_remove (d : ds) (k : Z) : option (ds * option (list Z)) :=
  let d' := Ds (zm_del k (d_ext d)) (d_blobs d) (d_next d) (d_freed d) in
  match zm_get k (d_ext d) with
  | None => Some (d', None)
  | Some e => match dpop d' e with Some (d2, o) => Some (d2, Some o) | None => None end
  end.
(** fs_tree.rs:266-291 extent_range: an included start, and an excluded end or none *)
Definition in_erange (lo : Z) (hi : option Z) (k : Z) : bool :=
  (lo <=? k) && match hi with Some h => k <? h | None => true end.
Definition ds_range (d : ds) (lo : Z) (hi : option Z) : list (Z * extent) :=
  filter (fun p => in_erange lo hi (fst p)) (d_ext d).
Fixpoint ddrops (d : ds) (es : list (Z * extent)) : option ds :=
  match es with
  | [] => Some d
  | (_, e) :: r => match ddrop d e with Some d' => ddrops d' r | None => None end
  end.
(** tree/node.rs:497-533 range_delete: every value dropped *)
Definition ds_range_delete (d : ds) (lo : Z) (hi : option Z) : option ds :=
  ddrops (Ds (filter (fun p => negb (in_erange lo hi (fst p))) (d_ext d)) (d_blobs d) (d_next d) (d_freed d)) (ds_range d lo hi).
(** database ReadDataset::get_blob, and Extent::Inline: the bytes of an extent read in place (fs.rs:726-738) *)
Definition ext_bytes (d : ds) (e : extent) : option (list Z) :=
  match e with Inline b => Some b | Blob r _ => zm_get r (d_blobs d) end.

(** fs_tree.rs:1441-1463 flush_bt, 1060-1082 InlineExtent::flush: long inline extents become blobs.  The ids are given in
    key order; in the source they are given in the order the writes are started. *)
Definition BLOB_THRESHOLD : Z := 1024. (* fs_tree.rs:44, BYTES_PER_LBA / 4 *)
Fixpoint flush_exts (es : list (Z * extent)) (bl : list (Z * list Z)) (nx : Z) : list (Z * extent) * list (Z * list Z) * Z :=
  match es with
  | [] => ([], bl, nx)
  | (k, e) :: r =>
      match e with
      | Inline b => if BLOB_THRESHOLD <? zlen b
                    then let '(r', bl', nx') := flush_exts r (zm_set nx b bl) (nx + 1) in ((k, Blob nx (zlen b)) :: r', bl', nx')
                    else let '(r', bl', nx') := flush_exts r bl nx in ((k, e) :: r', bl', nx')
      | Blob _ _ => let '(r', bl', nx') := flush_exts r bl nx in ((k, e) :: r', bl', nx')
      end
  end.
Definition ds_flush (d : ds) : ds :=
  let '(es, bl, nx) := flush_exts (d_ext d) (d_blobs d) (d_next d) in Ds es bl nx (d_freed d).

(** The file: its tree and the fields of its inode used here (fs_tree.rs:960-998) *)
Record file := File { f_ds : ds; f_size : Z; f_bytes : Z }.

(** * Uio, fs.rs:288-316 *)
Definition div_ceil (a b : Z) : Z := (a + b - 1) / b.
Definition uio_nrecs (len offset0 rs : Z) : Z := div_ceil (offset0 + len) rs - offset0 / rs.
Definition slice {A} (l : list A) (a b : Z) : list A := ztake (b - a) (zdrop a l).
(** slice indexing panics unless [a <= b <= len] *)
Definition slice_chk {A} (l : list A) (a b : Z) : option (list A) :=
  if (a <=? b) && (b <=? zlen l) && (0 <=? a) then Some (slice l a b) else None.
Definition chunk (data : list Z) (offset0 rs nrecs rec : Z) : option (list Z) :=
  let reclen1 := Z.min (zlen data) (rs - offset0) in
  if rec =? 0 then slice_chk data 0 reclen1
  else if rec =? nrecs - 1 then slice_chk data (reclen1 + (rec - 1) * rs) (zlen data)
  else slice_chk data (reclen1 + (rec - 1) * rs) (reclen1 + rec * rs).
Fixpoint chunks_from (data : list Z) (offset0 rs nrecs rec : Z) (n : nat) : option (list (list Z)) :=
  match n with
  | O => Some []
  | S n' => match chunk data offset0 rs nrecs rec, chunks_from data offset0 rs nrecs (rec + 1) n' with
            | Some c, Some r => Some (c :: r)
            | _, _ => None
            end
  end.
Definition into_chunks (data : list Z) (offset0 rs : Z) : option (list (list Z)) :=
  let nrecs := uio_nrecs (zlen data) offset0 rs in chunks_from data offset0 rs nrecs 0 (Z.to_nat nrecs).

(** * Writing, fs.rs:2416-2551 *)

(** Vec::resize with zeros *)
Definition resize (l : list Z) (n : Z) : list Z := ztake n l ++ zrepeat 0 (n - zlen l).
(** [base[o..o+len overlay].copy_from_slice(overlay)]; panics if the buffer is too short *)
Definition overwrite (base : list Z) (o : Z) (overlay : list Z) : option (list Z) :=
  if (0 <=? o) && (o + zlen overlay <=? zlen base) then Some (ztake o base ++ overlay ++ zdrop (o + zlen overlay) base) else None.

(** fs.rs:2491-2551 *)
Definition write_record (d : ds) (rs offset i : Z) (data : list Z) : option (ds * Z) :=
  let baseoffset := offset - offset mod rs in
  let offs := baseoffset + i * rs in
  let offset_into_rec := if i =? 0 then offset - baseoffset else 0 in
  let writelen := zlen data in
  if writelen <? rs then
    match ds_remove d offs with
    | None => None
    | Some (d1, r) =>
        let (base, old_len) :=
          match r with
          | None => (zrepeat 0 (writelen + offset_into_rec), 0)   (* fs.rs:2514-2523; the uninitialised part is overwritten below *)
          | Some b => (b, zlen b)
          end in
        let newsize := Z.max (offset_into_rec + writelen) (zlen base) in
        match overwrite (resize base newsize) offset_into_rec data with
        | None => None
        | Some b => match ds_insert d1 offs b with Some (d2, _) => Some (d2, zlen b - old_len) | None => None end
        end
    end
  else
    match ds_insert d offs data with
    | None => None
    | Some (d2, ov) => Some (d2, writelen - match ov with Some b => zlen b | None => 0 end)
    end.
Fixpoint write_records (d : ds) (rs offset i : Z) (cs : list (list Z)) : option (ds * Z) :=
  match cs with
  | [] => Some (d, 0)
  | c :: r => match write_record d rs offset i c with
              | None => None
              | Some (d1, x) => match write_records d1 rs offset (i + 1) r with Some (d2, y) => Some (d2, x + y) | None => None end
              end
  end.
(** u64::saturating_add_signed below 2^64 *)
Definition sat_add (a b : Z) : Z := Z.max 0 (a + b).
(** fs.rs:2416-2486 *)
Definition write (rs : Z) (f : file) (offset : Z) (data : list Z) : option (file * Z) :=
  let offset0 := offset mod rs in
  match into_chunks data offset0 rs with
  | None => None
  | Some cs =>
      match write_records (f_ds f) rs offset 0 cs with
      | None => None
      | Some (d, delta) => Some (File d (Z.max (f_size f) (offset + zlen data)) (sat_add (f_bytes f) delta), zlen data)
      end
  end.

(** * Reading, fs.rs:701-770 *)
Definition ZERO_REGION_LEN : Z := 32768. (* util.rs:19, 8 * BYTES_PER_LBA *)
(** [while p < q fill_hole]: one more buffer of zeros each time; [fuel] bounds the iterations *)
Fixpoint fill_holes (fuel : nat) (sg : list (list Z)) (p q : Z) : list (list Z) * Z :=
  match fuel with
  | O => (sg, p)
  | S n => if p <? q then let l := Z.min (q - p) ZERO_REGION_LEN in fill_holes n (sg ++ [zrepeat 0 l]) (p + l) q else (sg, p)
  end.
Fixpoint read_fold (offset size64 : Z) (sg : list (list Z)) (p : Z) (rec : Z) (l : list (Z * list Z)) : option (list (list Z) * Z) :=
  match l with
  | [] => Some (sg, p)
  | (ofs, db) :: r =>
      if ofs <? p then
        if rec =? 0 then                                   (* assert_eq!(rec, 0) *)
          let s := p - ofs in
          let e := Z.min (zlen db) (p + size64 - ofs) in
          if s <? e then let tb := slice db s e in read_fold offset size64 (sg ++ [tb]) (p + zlen tb) (rec + 1) r
          else read_fold offset size64 sg p (rec + 1) r
        else None
      else
        let (sg1, p1) := fill_holes (Z.to_nat (ofs - p)) sg p ofs in
        let db1 := if offset + size64 <? ofs + zlen db then ztake (offset + size64 - ofs) db else db in
        read_fold offset size64 (sg1 ++ [db1]) (p1 + zlen db1) (rec + 1) r
  end.
(** the records with their bytes, in key order: fs.rs:721-738 *)
Fixpoint fetch (d : ds) (es : list (Z * extent)) : option (list (Z * list Z)) :=
  match es with
  | [] => Some []
  | (k, e) :: r => match ext_bytes d e, fetch d r with Some b, Some l => Some ((k, b) :: l) | _, _ => None end
  end.
Definition do_read (d : ds) (fsize rs offset size : Z) : option (list (list Z)) :=
  let size64 := Z.min size (Z.max 0 (fsize - offset)) in
  let baseoffset := offset - offset mod rs in
  match fetch d (ds_range d baseoffset (Some (offset + size64))) with
  | None => None
  | Some l =>
      match read_fold offset size64 [] offset 0 l with
      | None => None
      | Some (sg, p) => Some (fst (fill_holes (Z.to_nat (size64 - (p - offset))) sg p (offset + size64)))
      end
  end.
(** fs.rs:1810-1847; the update of atime is left out *)
Definition read (rs : Z) (f : file) (offset size : Z) : option (list (list Z)) := do_read (f_ds f) (f_size f) rs offset size.

(** * Deallocation, fs.rs:853-980 *)

(** the partial record on the left, fs.rs:874-914 *)
Definition dealloc_left (d : ds) (offset : Z) (len : option Z) (rs : Z) : option (ds * Z) :=
  let recofs := offset mod rs in
  if recofs =? 0 then Some (d, 0) else
  let n := match len with Some l => Z.min (rs - recofs) l | None => rs - recofs end in
  let k := offset - recofs in
  match ds_remove d k with
  | None => None
  | Some (d1, None) => Some (d1, 0)
  | Some (d1, Some b) =>
      let '(b', r) :=
        if zlen b <? recofs then (b, 0)
        else if zlen b - recofs <=? n then (ztake recofs b, zlen b - recofs)
        else (ztake recofs b ++ zrepeat 0 n ++ zdrop (recofs + n) b, 0) in
      match ds_insert d1 k b' with Some (d2, _) => Some (d2, r) | None => None end
  end.
(** whole records, fs.rs:863-868 and 917-931 *)
Definition dealloc_full (d : ds) (offset : Z) (len : option Z) (rs : Z) : option (ds * Z) :=
  let hi := match len with Some l => Some (Z.max ((offset + l) - (offset + l) mod rs) offset) | None => None end in
  let s := fold_right (fun p a => ext_len (snd p) + a) 0 (ds_range d offset hi) in
  match ds_range_delete d offset hi with Some d' => Some (d', s) | None => None end.
(** the partial record on the right, fs.rs:937-976 *)
Definition dealloc_right (d : ds) (offset : Z) (len : option Z) (rs : Z) : option (ds * Z) :=
  match len with
  | None => Some (d, 0)
  | Some l =>
      if ((offset mod rs =? 0) || (offset / rs <? (offset + l) / rs)) && negb ((offset + l) mod rs =? 0) then
        let n := (offset + l) mod rs in
        let k := offset + l - n in
        match ds_remove d k with
        | None => None
        | Some (d1, None) => Some (d1, 0)
        | Some (d1, Some b) =>
            if n <? zlen b then
              match ds_insert d1 k (zrepeat 0 n ++ zdrop n b) with Some (d2, _) => Some (d2, 0) | None => None end
            else Some (d1, zlen b)
        end
      else Some (d, 0)
  end.
Definition do_deallocate (d : ds) (offset : Z) (len : option Z) (rs : Z) : option (ds * Z) :=
  match dealloc_left d offset len rs with
  | None => None
  | Some (d1, a) =>
      match dealloc_right d1 offset len rs with
      | None => None
      | Some (d2, b) => match dealloc_full d2 offset len rs with Some (d3, c) => Some (d3, a + b + c) | None => None end
      end
  end.
(** u64::saturating_sub *)
Definition sat_sub (a b : Z) : Z := Z.max 0 (a - b).
(** fs.rs:569-597 *)
Definition deallocate (rs : Z) (f : file) (offset len : Z) : option file :=
  let offset := Z.min (f_size f) offset in
  let len := Z.min (sat_sub (f_size f) offset) len in
  if 0 <? len then
    match do_deallocate (f_ds f) offset (Some len) rs with
    | None => None
    | Some (d, freed) => Some (File d (f_size f) (sat_sub (f_bytes f) freed))
    end
  else Some f.
(** fs.rs:809-849 do_setattr with [size] set *)
Definition set_size (rs : Z) (f : file) (new_size : Z) : option file :=
  if new_size <? f_size f then
    match do_deallocate (f_ds f) new_size None rs with
    | None => None
    | Some (d, freed) => Some (File d new_size (sat_sub (f_bytes f) freed))
    end
  else Some (File (f_ds f) new_size (sat_sub (f_bytes f) 0)).

(** * Seeking, fs.rs:1583-1644 *)
Inductive whence := SeekData | SeekHole.
(** the loop over the extents; [r] is the result so far, [None] for ENXIO *)
Fixpoint lseek_loop (w : whence) (offset : Z) (r : option Z) (es : list (Z * extent)) : option Z :=
  match es with
  | [] => r
  | (k, e) :: rest =>
      let fin := k + ext_len e in
      if fin <=? offset then lseek_loop w offset r rest
      else if k <=? offset then
        match w with SeekData => Some offset | SeekHole => lseek_loop w fin (Some fin) rest end
      else match w with SeekData => Some k | SeekHole => Some offset end
  end.
Definition lseek (rs : Z) (f : file) (offset : Z) (w : whence) : option Z :=
  if f_size f <? offset then None else
  lseek_loop w offset (match w with SeekData => None | SeekHole => Some (f_size f) end) (ds_range (f_ds f) (offset - offset mod rs) None).
