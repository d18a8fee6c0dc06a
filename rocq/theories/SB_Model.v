(** VdevRaid's stripe buffers: the part of raid/vdev_raid.rs that turns appends of
    arbitrary byte strings into whole-stripe writes, and serves reads of data not
    yet on disk.  What the stripes look like on the member disks is the business
    of Raid_Model.v; here the array below is a byte-addressed store. *)
From Verif Require Import Common SG_Model.

(** raid/vdev_raid.rs:74-83.  [stripesize] is a parameter of the functions. *)
Record sbuf := SB { sb_buf : sglist; sb_lba : Z }.

(** raid/vdev_raid.rs:123-126 *)
Definition sb_len (s : sbuf) : Z := sglist_len (sb_buf s).

(** raid/vdev_raid.rs:114-116 *)
Definition sb_is_empty (s : sbuf) : bool :=
  match sb_buf s with [] => true | _ => false end.

(** raid/vdev_raid.rs:108-111; the debug_assert is [None]. *)
Definition sb_is_full (stripesize : Z) (s : sbuf) : option bool :=
  if sb_len s <=? stripesize then Some (sb_len s =? stripesize) else None.

(** raid/vdev_raid.rs:138-141 *)
Definition sb_next_lba (s : sbuf) : option Z :=
  if sb_len s mod BYTES_PER_LBA =? 0 then Some (sb_lba s + sb_len s / BYTES_PER_LBA) else None.

(** raid/vdev_raid.rs:129-135 *)
Definition sb_new (lba stripe_lbas : Z) : option sbuf :=
  if lba mod stripe_lbas =? 0 then Some (SB [] lba) else None.

(** raid/vdev_raid.rs:90-105 *)
Definition sb_fill (stripesize : Z) (s : sbuf) (v : iovec) : option (sbuf * iovec) :=
  let want := stripesize - sb_len s in
  if want <? 0 then None (* usize underflow *) else
  let get := Z.min want (zlen v) in
  if get >? 0 then
    let v' := zdrop get v in
    let buf1 := sb_buf s ++ [ztake get v] in
    let partial := get mod BYTES_PER_LBA in
    if partial =? 0 then Some (SB buf1 (sb_lba s), v')
    else if zlen v' =? 0 then
      Some (SB (buf1 ++ [ztake (BYTES_PER_LBA - partial) zero_region]) (sb_lba s), v')
    else None (* debug_assert *)
  else Some (s, v).

(** raid/vdev_raid.rs:149-151, the loop of [pad] *)
Fixpoint sb_fill_zeros (stripesize : Z) (k : nat) (s : sbuf) : option sbuf :=
  match k with
  | O => Some s
  | S k' =>
    match sb_fill stripesize s zero_region with
    | None => None
    | Some (s', _) => sb_fill_zeros stripesize k' s'
    end
  end.

(** raid/vdev_raid.rs:145-157 *)
Definition sb_pad (stripesize : Z) (s : sbuf) : option (sbuf * Z) :=
  let padlen := stripesize - sb_len s in
  let zero_bufs := div_ceil padlen ZERO_REGION_LEN in
  if (padlen <? 0) || (zero_bufs <? 1) then None else
  match sb_fill_zeros stripesize (Z.to_nat (zero_bufs - 1)) s with
  | None => None
  | Some s1 =>
    match sb_fill stripesize s1 (ztake (padlen - (zero_bufs - 1) * ZERO_REGION_LEN) zero_region) with
    | None => None
    | Some (s2, _) =>
      if (sb_len s2 =? stripesize) && (padlen mod BYTES_PER_LBA =? 0)
      then Some (s2, padlen / BYTES_PER_LBA) else None
    end
  end.

(** raid/vdev_raid.rs:167-171 *)
Definition sb_pop (s : sbuf) : option (sglist * sbuf) :=
  match sb_next_lba s with
  | None => None
  | Some l => Some (sb_buf s, SB [] l)
  end.

(** raid/vdev_raid.rs:176-179 *)
Definition sb_reset (s : sbuf) (lba : Z) : option sbuf :=
  if sb_is_empty s then Some (SB (sb_buf s) lba) else None.

(** ** The array below: the journal of the writes issued to it (newest first), each
    a start LBA and the bytes, and the byte-addressed store they amount to, on top of whatever
    the array contained before, [g]. *)
Definition store := list (Z * list Z).
Definition st_write (d : Z -> Z) (addr : Z) (bs : list Z) : Z -> Z :=
  fun a => if (addr <=? a) && (a <? addr + zlen bs) then nth (Z.to_nat (a - addr)) bs 0 else d a.
Fixpoint st_get (g : Z -> Z) (d : store) : Z -> Z :=
  match d with
  | [] => g
  | (lba, bs) :: d' => st_write (st_get g d') (lba * BYTES_PER_LBA) bs
  end.
Definition st_read (g : Z -> Z) (d : store) (addr len : Z) : list Z := map (fun i => st_get g d (addr + i)) (zrange 0 len).

(** The open zones' stripe buffers (a BTreeMap, vdev_raid.rs:525) and the store. *)
Record raid := RD { rd_sbs : list (Z * sbuf); rd_store : store }.

Fixpoint sbs_get (l : list (Z * sbuf)) (z : Z) : option sbuf :=
  match l with
  | [] => None
  | (z', s) :: l' => if z =? z' then Some s else sbs_get l' z
  end.
Fixpoint sbs_set (l : list (Z * sbuf)) (z : Z) (s : sbuf) : list (Z * sbuf) :=
  match l with
  | [] => []
  | (z', s') :: l' => if z =? z' then (z, s) :: l' else (z', s') :: sbs_set l' z s
  end.

Definition wr (d : store) (lba : Z) (bs : list Z) : store := (lba, bs) :: d.

(** raid/vdev_raid.rs:2405-2463.  The futures are represented by their effect on
    the store.  [stripe_lbas] is chunksize * m. *)
Definition write_at (stripe_lbas : Z) (r : raid) (buf : iovec) (zone lba : Z) : option raid :=
  let stripe_len := stripe_lbas * BYTES_PER_LBA in
  match sbs_get (rd_sbs r) zone with
  | None => None (* expect("Can't write to a closed zone") *)
  | Some sb =>
  match sb_next_lba sb with
  | None => None
  | Some nl =>
  if negb (nl =? lba) then None else
  (* lines 2427-2443: buf3, lba, the buffer and the store afterwards *)
  match
    (if negb (sb_is_empty sb) || (zlen buf <? stripe_len) then
       match sb_fill stripe_len sb buf with
       | None => None
       | Some (sb1, buf2) =>
         match sb_is_full stripe_len sb1 with
         | None => None
         | Some true =>
           match sb_pop sb1 with
           | None => None
           | Some (sgl, sb2) =>
             Some (buf2, lba + (zlen buf - zlen buf2) / BYTES_PER_LBA, sb2,
                   wr (rd_store r) (sb_lba sb1) (concat sgl))
           end
         | Some false => Some (buf2, lba, sb1, rd_store r)
         end
       end
     else Some (buf, lba, sb, rd_store r))
  with
  | None => None
  | Some (buf3, lba1, sb3, d1) =>
    if zlen buf3 =? 0 then Some (RD (sbs_set (rd_sbs r) zone sb3) d1)
    else if negb (sb_is_empty sb3) then None (* debug_assert *)
    else
      let nstripes := zlen buf3 / stripe_len in
      let writable := ztake (nstripes * stripe_len) buf3 in
      let buf3' := zdrop (nstripes * stripe_len) buf3 in
      match sb_reset sb3 (lba1 + nstripes * stripe_lbas) with
      | None => None
      | Some sb4 =>
        match
          (if zlen buf3' =? 0 then Some (sb4, d1)
           else
             match sb_fill stripe_len sb4 buf3' with
             | None => None
             | Some (sb5, buf4) =>
               match sb_is_full stripe_len sb5 with
               | None => None
               | Some full =>
                 match
                   (if full then
                      match sb_pop sb5 with
                      | None => None
                      | Some (sgl, sb6) => Some (sb6, wr d1 (sb_lba sb5) (concat sgl))
                      end
                    else Some (sb5, d1))
                 with
                 | None => None
                 | Some (sb6, d2) =>
                   match sb_is_full stripe_len sb6 with
                   | Some false => if zlen buf4 =? 0 then Some (sb6, d2) else None
                   | _ => None
                   end
                 end
               end
             end)
        with
        | None => None
        | Some (sb7, d3) =>
          Some (RD (sbs_set (rd_sbs r) zone sb7) (wr d3 lba1 writable))
        end
      end
  end
  end
  end.

(** raid/vdev_raid.rs:2135-2158.  The result is the number of padding LBAs. *)
Definition flush_zone (stripe_lbas : Z) (r : raid) (zone : Z) : option (Z * raid) :=
  match sbs_get (rd_sbs r) zone with
  | None => Some (0, r)
  | Some sb =>
    if sb_is_empty sb then Some (0, r)
    else
      match sb_pad (stripe_lbas * BYTES_PER_LBA) sb with
      | None => None
      | Some (sb1, pad_lbas) =>
        match sb_pop sb1 with
        | None => None
        | Some (sgl, sb2) =>
          Some (pad_lbas, RD (sbs_set (rd_sbs r) zone sb2)
                             (wr (rd_store r) (sb_lba sb1) (concat sgl)))
        end
      end
  end.

(** raid/vdev_raid.rs:2179-2184, the closure of [find] *)
Definition sb_overlaps (lba end_lba : Z) (s : sbuf) : bool :=
  negb (sb_is_empty s) &&
  match sb_next_lba s with Some nl => lba <? nl | None => false end &&
  (end_lba >=? sb_lba s).

(** raid/vdev_raid.rs:2164-2232.  The two loops over the cursor (skip to the LBA of
    interest, 2194-2199; copy out, 2204-2209) have the shape of [one_col]. *)
Definition read_at (g : Z -> Z) (r : raid) (lba len : Z) : option (list Z) :=
  if negb (len mod BYTES_PER_LBA =? 0) then None else
  let end_lba := lba + (len - 1) / BYTES_PER_LBA in
  match find (sb_overlaps lba end_lba) (map snd (rd_sbs r)) with
  | None => Some (st_read g (rd_store r) (lba * BYTES_PER_LBA) len)
  | Some sb =>
    let cur := cursor_from (sb_buf sb) in
    match
      (if sb_lba sb >? lba then Some ((sb_lba sb - lba) * BYTES_PER_LBA, cur)
       else
         let to_skip := (lba - sb_lba sb) * BYTES_PER_LBA in
         match one_col (Z.to_nat to_skip) cur 0 to_skip with
         | None => None
         | Some (_, cur') => Some (0, cur')
         end)
    with
    | None => None
    | Some (direct_len, cur') =>
      match one_col (Z.to_nat (len - direct_len)) cur' 0 (len - direct_len) with
      | None => None (* expect("Read beyond the stripe buffer into unallocated space") *)
      | Some (col, _) =>
        Some ((if direct_len =? 0 then [] else st_read g (rd_store r) (lba * BYTES_PER_LBA) direct_len)
              ++ concat col)
      end
    end
  end.

(** raid/vdev_raid.rs:744-751: only the stripe-buffer part of [open_zone_priv]
    (the member disks' zones are opened, and their leading wasted space filled, in
    the rest).  [start_lba] is the first component of [zone_limits]. *)
Definition open_zone (stripe_lbas start_lba : Z) (r : raid) (zone already_allocated : Z) : option raid :=
  match sb_new (start_lba + already_allocated) stripe_lbas with
  | None => None
  | Some sb =>
    match sbs_get (rd_sbs r) zone with
    | Some _ => None (* assert!(insert().is_none()) *)
    | None => Some (RD ((zone, sb) :: rd_sbs r) (rd_store r))
    end
  end.

(** raid/vdev_raid.rs:2109-2133, without the members' [finish_zone] *)
Definition finish_zone (stripe_lbas : Z) (r : raid) (zone : Z) : option raid :=
  match sbs_get (rd_sbs r) zone with
  | None => None (* expect("Can't finish a closed zone") *)
  | Some _ =>
    match flush_zone stripe_lbas r zone with
    | None => None
    | Some (_, r1) => Some (RD (filter (fun p => negb (fst p =? zone)) (rd_sbs r1)) (rd_store r1))
    end
  end.
