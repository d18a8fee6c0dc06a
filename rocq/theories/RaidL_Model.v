(** Model of the RAID vdev's long reads: all the versions of some data that can be rebuilt from different disks, for the caller to try one after
    the other when what an ordinary read returned fails its checksum (bfffs-core/src/raid/vdev_raid.rs:1250-1505, 2235-2256).

    Buffers are lists of bytes.  The order of completion of the reads does not matter: they are collected in order.  The result is an iterator: a list of
    what it yields; None is a panic while yielding.  The codec gets raw pointers: a column too short would be undefined behaviour, but all
    have the same length.  B is BYTES_PER_LBA. *)
From Verif Require Import Common FSM_Model PrimeS_Model Codec_Model Raid_Model.

Section RaidL.
Context (L : layout) (cs B : Z).
Context (dk : Z -> Z -> Z) (ok : Z -> Z -> bool) (junk : Z -> Z -> Z).
(** Child::read_at, vdev_raid.rs:300s: a read that fails leaves anything in the buffer *)
Definition child_read (d lba len : Z) : list Z := map (fun j => if ok d lba then dk d (lba * B + j) else junk d (lba * B + j)) (zrange 0 len).

(** itertools' combinations: all sublists of length [f], in lexicographic order *)
Fixpoint combinations (f : nat) (l : list Z) : list (list Z) :=
  match f, l with
  | O, _ => [[]]
  | S f', [] => []
  | S f', x :: l' => map (cons x) (combinations f' l') ++ combinations f l'
  end.
Definition member (i : Z) (s : list Z) : bool := existsb (Z.eqb i) s.

(** filling in the decoded columns where the data columns are erased *)
Fixpoint fill_in (er : Z -> bool) (i : Z) (data missing : list (list Z)) : list (list Z) :=
  match data with
  | [] => []
  | c :: data =>
    if er i then (match missing with [] => c | x :: _ => x end) :: fill_in er (i + 1) data (tl missing)
    else c :: fill_in er (i + 1) data missing
  end.
(** rebuilding the data columns of one stripe, given the columns read and which columns to take as erased, vdev_raid.rs:1449-1479 and 1327-1365.  The
    survivors are the columns not erased, until there are [dm L] of them.  In read_long_one all the data columns that are not erased are copied, of which
    there are never more; in read_long_multi the loop stops there, which changes nothing as only parity columns are left then. *)
Definition rebuild (cols : list (list Z)) (er : Z -> bool) : option (list (list Z)) :=
  let data := ztake (dm L) cols in
  let surviving := ztake (dm L) (map snd (filter (fun ic => negb (er (fst ic))) (combine (zrange 0 (lk L)) cols))) in
  let nmissing := length (filter (fun i => er i) (zrange 0 (dm L))) in
  if (nmissing =? 0)%nat then Some data
  else let* dec := decode (Z.to_nat (lk L)) (Z.to_nat (lf L)) (Z.to_nat (col_len cs B)) surviving nmissing (fun i => er (Z.of_nat i)) in
       Some (fill_in er 0 data dec).

(** vdev_raid.rs:1481-1499: the part that the user wants; None is the failing slice *)
Definition cut (buf : list Z) (off len : Z) : option (list Z) := if off + len <=? zlen buf then Some (ztake len (zdrop off buf)) else None.

(** read_long_one, vdev_raid.rs:1394-1505 *)
Definition read_long_one (unlbas ulba : Z) : list (option (list Z)) :=
  let lbas_per_stripe := cs * dm L in
  let stripe_lba := ulba - ulba mod lbas_per_stripe in
  let locs := map snd (chunk_iter L (Data (stripe_lba / cs)) (Data ((stripe_lba + lbas_per_stripe) / cs))) in
  let cols := map (fun loc => child_read (l_disk loc) (l_offset loc * cs) (col_len cs B)) locs in
  let dv := map (fun loc => ok (l_disk loc) (l_offset loc * cs)) locs in
  let failures := map fst (filter (fun iv => negb (snd iv)) (combine (zrange 0 (zlen dv)) dv)) in
  map (fun it =>
         let* data := rebuild cols (fun i => member i it) in
         if unlbas =? lbas_per_stripe then Some (concat data) else cut (concat data) (ulba mod lbas_per_stripe * B) (unlbas * B))
      (filter (fun it => forallb (fun i => member i it) failures) (combinations (Z.to_nat (lf L)) (zrange 0 (lk L)))).

(** vdev_raid.rs:1281-1287: first and past-the-end rows of each disk's part of the range *)
Definition note_arg (args : Z -> option (Z * Z)) (loc : chunkloc) : Z -> option (Z * Z) :=
  upd args (l_disk loc) (match args (l_disk loc) with None => Some (l_offset loc, l_offset loc + 1) | Some (s, _) => Some (s, l_offset loc + 1) end).
(** read_long_multi, vdev_raid.rs:1250-1387 *)
Definition read_long_multi (unlbas ulba : Z) : list (option (list Z)) :=
  let lbas_per_stripe := cs * dm L in
  let start_stripe := ulba / lbas_per_stripe in
  let end_stripe := (ulba + unlbas - 1) / lbas_per_stripe in
  let stripes := end_stripe - start_stripe + 1 in
  let start_chunk := (ulba - ulba mod lbas_per_stripe) / cs in
  let locs := map snd (chunk_iter L (Data start_chunk) (Data (start_chunk + stripes * dm L))) in
  let args := fold_left note_arg locs (fun _ => None) in
  (* one read for each disk that has a chunk of the range, 1289-1300 *)
  let reads := flat_map (fun d => match args d with None => [] | Some (s, e) => [(d, s, e)] end) (zrange 0 (ln L)) in
  let buffer d := match args d with None => [] | Some (s, e) => child_read d (s * cs) ((e - s) * cs * B) end in
  let dv := map (fun r => ok (fst (fst r)) (snd (fst r) * cs)) reads in
  (* the position among the reads is taken for the number of the disk, 1302-1307 *)
  let failures := map fst (filter (fun iv => negb (snd iv)) (combine (zrange 0 (zlen dv)) dv)) in
  map (fun disk_erasures =>
         let* data := ofold (fun acc s =>
             let chunks := chunk_iter L (Data (s * dm L)) (Data ((s + 1) * dm L)) in
             (* the chunk's part of its disk's buffer, 1345-1348; the unwrap of a disk without buffer and a split past the end are panics *)
             let* cols := ofold (fun cols cl =>
                  let* a := args (l_disk (snd cl)) in
                  let off := (l_offset (snd cl) - fst a) * col_len cs B in
                  let b := buffer (l_disk (snd cl)) in
                  oassert ((0 <=? off) && (off + col_len cs B <=? zlen b)) (Some (cols ++ [ztake (col_len cs B) (zdrop off b)]))) chunks [] in
             let er i := match nth_error chunks (Z.to_nat i) with Some (cid, loc) => member (l_disk loc) disk_erasures && (match cid with Data _ => true | Parity _ _ => false end) | None => false end in
             let* st := rebuild cols er in
             Some (acc ++ concat st)) (zrange start_stripe (end_stripe + 1)) [] in
         cut data (ulba mod lbas_per_stripe * B) (unlbas * B))
      (filter (fun it => forallb (fun i => member i it) failures) (combinations (Z.to_nat (lf L)) (zrange 0 (ln L)))).

(** read_long, vdev_raid.rs:2235-2256; None is the error EINTEGRITY *)
Definition read_long (faulted unlbas ulba : Z) : option (list (option (list Z))) :=
  if lf L <=? faulted then None
  else if ulba / (cs * dm L) =? (ulba + unlbas - 1) / (cs * dm L) then Some (read_long_one unlbas ulba)
  else Some (read_long_multi unlbas ulba).
End RaidL.
