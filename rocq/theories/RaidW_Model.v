(** Model of the RAID vdev's writes: how a write of whole stripes becomes writes of the member disks
    (bfffs-core/src/raid/vdev_raid.rs).  Reads are in Raid_Model.v, the stripe buffers in SB_Model.v.

    Buffers that are written are only read, so they are lists of bytes; scatter-gather lists are lists of such lists.
    The futures are run one after the other, in the order in which they are collected: they write to different disks.
    B is BYTES_PER_LBA, as in Raid_Model.v.  The codec gets its columns as raw pointers: columns too few or too short
    would be undefined behaviour, None.  Error codes are not modelled: an error is [false]. *)
From Verif Require Import Common FSM_Model PrimeS_Model Codec_Model SG_Model Raid_Model.

Definition disks := Z -> Z -> Z.
Section RaidW.
Context (L : layout) (cs B : Z).
(** [wok d lba] tells whether a write of disk [d] that starts at LBA [lba] succeeds; it is false for an absent child.
    A write that fails may leave anything in the place to be written, [wjunk]. *)
Context (wok : Z -> Z -> bool) (wjunk : disks).

(** Child::write_at and Child::writev_at, vdev_raid.rs:376-382,394-400 *)
Definition child_write (dk : disks) (d lba : Z) (vs : list Z) : disks * bool :=
  let inside d' o := (d' =? d) && (lba * B <=? o) && (o <? lba * B + zlen vs) in
  if wok d lba then (fun d' o => if inside d' o then nth (Z.to_nat (o - lba * B)) vs 0 else dk d' o, true)
  else (fun d' o => if inside d' o then wjunk d' o else dk d' o, false).

(** issue_1stripe_writes!, vdev_raid.rs:541-565: [locs] is the iterator; running out of it is the failing unwrap *)
Fixpoint issue (dk : disks) (first : bool) (cols : list (list Z)) (locs : list (chunkid * chunkloc)) (lba : Z) : option (disks * list bool) :=
  match cols with
  | [] => Some (dk, [])
  | c :: cols =>
    match locs with
    | [] => None
    | (_, loc) :: locs =>
      let disk_lba := if first then l_offset loc * cs + lba mod cs else l_offset loc * cs in
      let dr := child_write dk (l_disk loc) disk_lba c in
      let* r := issue (fst dr) false cols locs lba in
      Some (fst r, snd dr :: snd r)
    end
  end.
(** vdev_raid.rs:545-553 *)
Definition data_locs (lba : Z) := chunk_iter L (Data (lba / cs)) (Parity (lba / cs) 0).
Definition parity_locs (lba : Z) := chunk_iter L (Parity (lba / cs) 0) (Data (lba / cs + dm L)).
(** vdev_raid.rs:1839-1850, 1907-1918, 1778-1790: an error only if more disks failed than there is parity for *)
Definition verdict (rs : list bool) : bool := negb (lf L <? zlen (filter negb rs)).

(** IoVec::into_chunks (divbuf) *)
Definition into_chunks (buf : list Z) : list (list Z) :=
  map (fun i => ztake (col_len cs B) (zdrop (i * col_len cs B) buf)) (zrange 0 (div_ceil (zlen buf) (col_len cs B))).

(** write_at_one, vdev_raid.rs:1801-1855 *)
Definition write_at_one (dk : disks) (buf : list Z) (lba : Z) : option (disks * bool) :=
  let dcols := into_chunks buf in
  oassert ((zlen dcols =? dm L) && forallb (fun c => zlen c =? col_len cs B) dcols)
  (let pw := encode (Z.to_nat (lk L)) (Z.to_nat (lf L)) (Z.to_nat (col_len cs B)) dcols in
   let* d := issue dk true dcols (data_locs lba) lba in
   let* p := issue (fst d) true pw (parity_locs lba) lba in
   Some (fst p, verdict (snd d ++ snd p))).

(** writev_at_one, vdev_raid.rs:1862-1923; the columns are cut by SG_Model.all_cols *)
Definition writev_at_one (dk : disks) (buf : sglist) (lba : Z) : option (disks * bool) :=
  let* dc := all_cols (Z.to_nat (col_len cs B)) (Z.to_nat (dm L)) (cursor_from buf) (col_len cs B) in
  let* pw := encodev (Z.to_nat (lk L)) (Z.to_nat (lf L)) (col_len cs B) (fst dc) in
  let* d := issue dk true (map (@concat Z) (fst dc)) (data_locs lba) lba in
  let* p := issue (fst d) true pw (parity_locs lba) lba in
  Some (fst p, verdict (snd d ++ snd p)).

(** ** Several stripes *)

(** per disk: the scatter-gather list and the first LBA to write (None: SENTINEL); what is left of the data and of each parity buffer *)
Record wst := Wst { w_sg : Z -> list (list Z); w_start : Z -> option Z; w_buf : list Z; w_par : Z -> list Z }.
(** DivBuf::split_to *)
Definition lsplit (n : Z) (l : list Z) : option (list Z * list Z) := if n <=? zlen l then Some (ztake n l, zdrop n l) else None.
Definition w_push (disk disk_lba : Z) (col : list Z) (st : wst) : wst :=
  Wst (upd (w_sg st) disk (w_sg st disk ++ [col])) (upd (w_start st) disk (match w_start st disk with Some l => Some l | None => Some disk_lba end)) (w_buf st) (w_par st).
(** one round of the loop, vdev_raid.rs:1756-1769; a parity index out of range is the failing pw[i] *)
Definition wmulti_step (st : wst) (cl : chunkid * chunkloc) : option wst :=
  let disk := l_disk (snd cl) in
  let disk_lba := l_offset (snd cl) * cs in
  match fst cl with
  | Data _ => let* s := lsplit (col_len cs B) (w_buf st) in Some (w_push disk disk_lba (fst s) (Wst (w_sg st) (w_start st) (snd s) (w_par st)))
  | Parity _ i => oassert (i <? lf L) (let* s := lsplit (col_len cs B) (w_par st i) in Some (w_push disk disk_lba (fst s) (Wst (w_sg st) (w_start st) (w_buf st) (upd (w_par st) i (snd s)))))
  end.
(** the columns of stripe [s] of the buffer, vdev_raid.rs:1715-1721 (slicing past the end panics) *)
Definition stripe_cols (buf : list Z) (s : Z) : list (list Z) :=
  map (fun i => ztake (col_len cs B) (zdrop ((s * dm L + i) * col_len cs B) buf)) (zrange 0 (dm L)).
(** the parity buffers, vdev_raid.rs:1707-1742 *)
Definition parity_buf (buf : list Z) (stripes i : Z) : list Z :=
  concat (map (fun s => nth (Z.to_nat i) (encode (Z.to_nat (lk L)) (Z.to_nat (lf L)) (Z.to_nat (col_len cs B)) (stripe_cols buf s)) []) (zrange 0 stripes)).
(** the disks' writes, vdev_raid.rs:1771-1777: one result for each disk that is written *)
Definition write_disks (st : wst) (dk : disks) : disks * list bool :=
  fold_left (fun acc d => match w_start st d with
                          | None => acc
                          | Some lba => let dr := child_write (fst acc) d lba (concat (w_sg st d)) in (fst dr, snd acc ++ [snd dr]) end)
            (zrange 0 (ln L)) (dk, []).
(** write_at_multi, vdev_raid.rs:1698-1798 *)
Definition write_at_multi (dk : disks) (buf : list Z) (lba : Z) : option (disks * bool) :=
  let chunks := zlen buf / col_len cs B in
  let stripes := chunks / dm L in
  let* st := ofold wmulti_step (chunk_iter L (Data (lba / cs)) (Data ((lba + zlen buf / B) / cs)))
                   (Wst (fun _ => []) (fun _ => None) buf (parity_buf buf stripes)) in
  let r := write_disks st dk in
  Some (fst r, verdict (snd r)).

(** The choice that write_at makes for the whole stripes of a buffer, vdev_raid.rs:2436-2438,2454-2458 *)
Definition write_stripes (dk : disks) (buf : list Z) (lba : Z) : option (disks * bool) :=
  if zlen buf / (col_len cs B * dm L) =? 1 then write_at_one dk buf lba else write_at_multi dk buf lba.
(** what the stripe buffers send down ([SB_Model.store], the latest write first): each goes to writev_at_one if it came out of a
    stripe buffer and to write_stripes otherwise; RaidW_Proofs.writev_write shows that the former does what the latter does. *)
Fixpoint replay (dk : disks) (ws : list (Z * list Z)) : option (disks * bool) :=
  match ws with
  | [] => Some (dk, true)
  | (lba, buf) :: ws => let* r := replay dk ws in let* r' := write_stripes (fst r) buf lba in Some (fst r', snd r && snd r')
  end.
End RaidW.
