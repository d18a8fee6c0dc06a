(** Model of the RAID vdev's data path: how reads and writes of the array become reads and writes of its member disks,
    and how missing chunks are rebuilt (bfffs-core/src/raid/vdev_raid.rs).

    Buffers.  A DivBufMut is modelled by the list of the memory cells it covers, one cell per byte; split_to cuts the list.
    Cell (0, i) is byte i of the caller's buffer; the buffers that the array allocates for itself are numbered from 1.
    An SGListMut is a list of such lists.  Memory maps cells to bytes.

    Simplifications.
    - The futures that a read collects are run one after the other, in the order in which they are collected.  They fill
      disjoint cells, so the order does not matter.
    - Disk addresses are byte addresses [lba * B + i]; B is BYTES_PER_LBA.  It is a parameter here, so that the cases
      beside the theorems can be small.
    - debug_assert! is not modelled (release build); assert!, unwrap and out-of-range slices are: they give None.
      usize subtraction in release builds wraps; [wsub] says where that matters.
    - Error codes are not modelled: an error is [false]. *)
From Verif Require Import Common FSM_Model PrimeS_Model Codec_Model.

Definition addr := (Z * Z)%type.
Definition slice := list addr.
Definition mem := addr -> Z.
Definition addr_eqb (a b : addr) : bool := (fst a =? fst b) && (snd a =? snd b).

(** write [vs] into the cells [cs], in order *)
Fixpoint put (m : mem) (cs : slice) (vs : list Z) : mem :=
  match cs, vs with
  | c :: cs, v :: vs => put (fun a => if addr_eqb a c then v else m a) cs vs
  | _, _ => m
  end.
Definition get (m : mem) (cs : slice) : list Z := map m cs.
(** DivBufMut::split_to (divbuf): panics if the buffer is shorter *)
Definition split_to (n : Z) (s : slice) : option (slice * slice) :=
  if (0 <=? n) && (n <=? zlen s) then Some (ztake n s, zdrop n s) else None.
(** a fresh buffer, DivBufShared::uninitialized *)
Definition buffer (id len : Z) : slice := map (fun j => (id, j)) (zrange 0 len).
Definition is_data (x : chunkid) : bool := match x with Data _ => true | Parity _ _ => false end.
Definition is_nil {A} (l : list A) : bool := match l with [] => true | _ => false end.
(** lba.div_ceil(d) *)
Definition div_ceil (a d : Z) : Z := (a + d - 1) / d.

Section Raid.
Context (L : layout) (cs B : Z).

(** vdev_raid.rs:1043,1046: bytes in a chunk; data chunks in a stripe; LBAs in a stripe *)
Definition col_len : Z := cs * B.
Definition dm : Z := lk L - lf L.
Definition lps : Z := cs * dm.

(** Number of a chunk in the locator's order, only used to bound the iteration (a LocIter ends when it reaches its end). *)
Definition chunk_pos (x : chunkid) : Z := match x with Data a => (a / dm) * lk L + a mod dm | Parity a i => (a / dm) * lk L + dm + i end.
(** self.inner.locator.iter(a, b), prime_s.rs via PrimeS_Model *)
Definition chunk_iter (a b : chunkid) : list (chunkid * chunkloc) :=
  fst (iter_collect L (S (Z.to_nat (chunk_pos b - chunk_pos a))) (iter_new L a b)).

(** * Reading *)
Section Read.
(** [dk d i] is byte [i] of disk [d].  [ok d lba] tells whether a read of disk [d] that starts at LBA [lba] succeeds;
    it is false for an absent child (vdev_raid.rs:219-235, Child::read_at: ENXIO).  A read that fails may have put anything
    into its buffers, [junk].  [faulted] is the number of absent children, VdevRaid::faulted_children (vdev_raid.rs:618-624). *)
Context (dk : Z -> Z -> Z) (ok : Z -> Z -> bool) (junk : mem) (faulted : Z).

(** Child::read_at and Child::readv_at, vdev_raid.rs:219-243 *)
Definition child_readv (mm : mem) (sg : list slice) (disk lba : Z) : mem * bool :=
  let c := concat sg in
  if ok disk lba then (put mm c (map (fun j => dk disk (lba * B + j)) (zrange 0 (zlen c))), true)
  else (put mm c (map junk c), false).

(** ** Reconstruction *)

(** the closure append_cols, vdev_raid.rs:1575-1609: cut the column, given as the buffers it is scattered over, into the three
    zones of c0, c1 and c2 bytes.  The last zone is used through a pointer: it is whatever is left of the current buffer. *)
Definition append_cols (c0 c1 c2 : Z) (cols : list slice) : option (slice * slice * slice) :=
  match cols with
  | [] => None
  | col :: cols =>
    let* pc := (if 0 <? c0 then split_to c0 col else Some ([], col)) in
    let* cc := (if is_nil (snd pc) then match cols with [] => None | c :: r => Some (c, r) end else Some (snd pc, cols)) in
    let* mc := split_to c1 (fst cc) in
    if 0 <? c2 then
      let* cc2 := (if is_nil (snd mc) then match snd cc with [] => None | c :: _ => Some c end else Some (snd mc)) in
      Some (fst pc, fst mc, cc2)
    else Some (fst pc, fst mc, [])
  end.

(** the state of the loop: the rest of the user's buffer and of the extra buffers, and what was appended for each position *)
(** vdev_raid.rs:1611-1658, one round: the buffers that hold column [i] of the stripe *)
Definition recon_cols (c0 c2 lba end_lba slba : Z) (data : slice) (ex : list slice) (i : Z) : option (list slice * slice * list slice) :=
  let chunk_lba := slba + i * cs in
  let chunk_elba := chunk_lba + cs in
  if chunk_elba <=? lba then match ex with [] => None | e :: ex => Some ([e], data, ex) end
  else if chunk_lba <? lba then
    oassert (0 <? c0)
    match ex with [] => None | e :: ex =>
      let datasize := Z.min (end_lba - lba) (chunk_elba - lba) * B in
      let* dd := split_to datasize data in
      (* exsize1 is a usize: a negative difference wraps to something positive *)
      if negb (col_len - datasize - zlen e =? 0) then
        match ex with [] => None | e2 :: ex => Some ([e; fst dd; e2], snd dd, ex) end
      else Some ([e; fst dd], snd dd, ex)
    end
  else if chunk_elba <=? end_lba then
    let* dd := split_to col_len data in Some ([fst dd], snd dd, ex)
  else if chunk_lba <? end_lba then
    oassert (0 <? c2)
    match ex with [] => None | e :: ex => Some ([data; e], [], ex) end
  else match ex with [] => None | e :: ex => Some ([e], data, ex) end.

Fixpoint recon_loop (c0 c1 c2 lba end_lba slba : Z) (data : slice) (ex : list slice) (i : Z) (v : list bool)
  : option (list (slice * slice * slice)) :=
  match v with
  | [] => Some []
  | r :: v =>
    let* cde := recon_cols c0 c2 lba end_lba slba data ex i in
    let* z := append_cols c0 c1 c2 (fst (fst cde)) in
    let* zs := recon_loop c0 c1 c2 lba end_lba slba (snd (fst cde)) (snd cde) (i + 1) v in
    Some (z :: zs)
  end.

Definition zone (j : Z) (z : slice * slice * slice) : slice := if j =? 0 then fst (fst z) else if j =? 1 then snd (fst z) else snd z.
(** write the reconstructed columns; the codec writes [bytes] bytes through each pointer *)
Fixpoint put_all (mm : mem) (cols : list slice) (vals : list (list Z)) : mem :=
  match cols, vals with
  | c :: cols, v :: vals => put_all (put mm c v) cols vals
  | _, _ => mm
  end.

(** vdev_raid.rs:1660-1678, one zone; reading or writing past the end of a buffer would be undefined behaviour: None *)
Definition decode_zone (mm : mem) (v : list bool) (zs : list (slice * slice * slice)) (j bytes : Z) : option mem :=
  let iv := combine (zrange 0 (zlen v)) (combine v zs) in
  let surviving := map (fun x => zone j (snd (snd x))) (filter (fun x => fst (snd x)) iv) in
  let missing := map (fun x => zone j (snd (snd x))) (filter (fun x => negb (fst (snd x)) && (fst x <? dm)) iv) in
  if negb (is_nil missing) && (0 <? bytes) then
    oassert (forallb (fun s => bytes <=? zlen s) (surviving ++ missing))
    (let* out := decode (Z.to_nat (lk L)) (Z.to_nat (lf L)) (Z.to_nat bytes) (map (fun s => get mm (ztake bytes s)) surviving)
                        (length missing) (fun i => negb (nth i v true)) in
     Some (put_all mm (map (ztake bytes) missing) out))
  else Some mm.

(** How many disks, counting from the start of the stripe, are needed, vdev_raid.rs:1530-1543 *)
Definition disks_needed (v : list bool) : option Z :=
  match nth_error (filter (fun iv : Z * bool => snd iv) (combine (zrange 0 (zlen v)) v)) (Z.to_nat (dm - 1)) with
  | Some (i, _) => Some (1 + i)
  | None => None
  end.

(** read_at_reconstruction, vdev_raid.rs:1507-1679 *)
Definition read_at_reconstruction (mm : mem) (data : slice) (lba : Z) (exbufs : list slice) (v : list bool) : option (mem * bool) :=
  match disks_needed v with
  | None => Some (mm, false)
  | Some need =>
    if need <=? dm then Some (mm, true)
    else
      let end_lba := lba + zlen data / B in
      let stripe_offset := lba mod (dm * cs) in
      let pre_lbas := if negb (end_lba mod cs =? 0) then Z.min (lba mod cs) (end_lba mod cs) else lba mod cs in
      let post_lbas := if end_lba mod cs =? 0 then 0
                       else if lba mod cs <? end_lba mod cs then cs - end_lba mod cs else cs - lba mod cs in
      let c0 := pre_lbas * B in
      let c2 := post_lbas * B in
      let c1 := col_len - c0 - c2 in
      let v' := ztake need v in
      let* zs := recon_loop c0 c1 c2 lba end_lba (lba - stripe_offset) data exbufs 0 v' in
      let* m0 := decode_zone mm v' zs 0 c0 in
      let* m1 := decode_zone m0 v' zs 1 c1 in
      let* m2 := decode_zone m1 v' zs 2 c2 in
      Some (m2, true)
  end.

(** ** Reading (part of) one stripe *)

(** memory, what is left of the user's buffer, the extra buffers (None: not allocated), the results so far, and the next buffer id *)
Record rst := Rst { r_mem : mem; r_buf : slice; r_ex : option (list slice); r_dv : list bool; r_next : Z }.
(** exbufs.as_mut().unwrap().push(dbs) *)
Definition alloc (st : rst) (len : Z) : option (slice * rst) :=
  match r_ex st with
  | None => None
  | Some ex => let s := buffer (r_next st) len in Some (s, Rst (r_mem st) (r_buf st) (Some (ex ++ [s])) (r_dv st) (r_next st + 1))
  end.
Definition rsplit (st : rst) (n : Z) : option (slice * rst) :=
  let* sr := split_to n (r_buf st) in Some (fst sr, Rst (r_mem st) (snd sr) (r_ex st) (r_dv st) (r_next st)).
Definition rread (st : rst) (sg : list slice) (disk lba : Z) : rst :=
  let mr := child_readv (r_mem st) sg disk lba in Rst (fst mr) (r_buf st) (r_ex st) (r_dv st ++ [snd mr]) (r_next st).

(** the closure of the first pass of read_at_one, vdev_raid.rs:1089-1162 *)
Definition one_step (ulba uelba : Z) (st : rst) (cl : chunkid * chunkloc) : option rst :=
  let cid_lba := address (fst cl) * cs in
  let cid_end_lba := cid_lba + cs in
  let disk := l_disk (snd cl) in
  let disk_lba := l_offset (snd cl) * cs in
  if negb (is_data (fst cl)) || (cid_end_lba <=? ulba) then
    let* s := alloc st col_len in Some (rread (snd s) [fst s] disk disk_lba)
  else if (cid_lba <? ulba) && (0 <? faulted) then
    let datasize := Z.min ((cs - ulba mod cs) * B) (zlen (r_buf st)) in
    let exsize0 := (ulba - cid_lba) * B in
    let* d := rsplit st datasize in
    let* e := alloc (snd d) exsize0 in
    let exsize1 := col_len - datasize - exsize0 in
    if 0 <? exsize1 then
      let* e2 := alloc (snd e) exsize1 in Some (rread (snd e2) [fst e; fst d; fst e2] disk disk_lba)
    else Some (rread (snd e) [fst e; fst d] disk disk_lba)
  else if cid_lba <? ulba then
    let* d := rsplit st (Z.min ((cs - ulba mod cs) * B) (zlen (r_buf st))) in
    Some (rread (snd d) [fst d] disk (disk_lba + ulba mod cs))
  else if cid_end_lba <=? uelba then
    let* d := rsplit st (Z.min col_len (zlen (r_buf st))) in Some (rread (snd d) [fst d] disk disk_lba)
  else if (cid_lba <? uelba) && (faulted =? 0) then
    let* d := rsplit st (zlen (r_buf st)) in Some (rread (snd d) [fst d] disk disk_lba)
  else if cid_lba <? uelba then
    let exlen := col_len - zlen (r_buf st) in
    let* d := rsplit st (zlen (r_buf st)) in
    let* e := alloc (snd d) exlen in
    Some (rread (snd e) [fst d; fst e] disk disk_lba)
  else
    let* s := alloc st col_len in Some (rread (snd s) [fst s] disk disk_lba).
Fixpoint ofold {A S} (f : S -> A -> option S) (l : list A) (s : S) : option S :=
  match l with [] => Some s | x :: l => let* s1 := f s x in ofold f l s1 end.

(** the closure of the error recovery pass, vdev_raid.rs:1196-1238: [dv0] are the results of the passes before *)
Definition retry_step (start_chunk_addr old_nerrs : Z) (dv0 : list bool) (st : rst) (cl : chunkid * chunkloc) : option rst :=
  let again := let* s := alloc st col_len in Some (rread (snd s) [fst s] (l_disk (snd cl)) (l_offset (snd cl) * cs)) in
  let old (i : Z) := match nth_error dv0 (Z.to_nat i) with
    | Some r => Some (Rst (r_mem st) (r_buf st) (r_ex st) (r_dv st ++ [r]) (r_next st)) | None => None end in
  match fst cl with
  | Parity _ pid => if pid <? old_nerrs then old (dm + pid) else again
  | Data a => if a <? start_chunk_addr then again
              else if a - start_chunk_addr <? zlen dv0 then old (a - start_chunk_addr) else again
  end.
Definition nerrs_of (dv : list bool) : Z := zlen (filter negb dv).
(** the loop, vdev_raid.rs:1171-1242.  Each further round has more errors, up to f, so f + 2 rounds are enough *)
Fixpoint retry_loop (fuel : nat) (stripe_lba start_chunk_addr old_nerrs : Z) (st : rst) : option rst :=
  match fuel with
  | O => None
  | S fuel =>
    let nerrs := nerrs_of (r_dv st) in
    if nerrs <=? old_nerrs then Some st
    else if lf L <? nerrs then Some st
    else
      let ex := match r_ex st with Some e => e | None => [] end in
      let end_cid := if (0 <? nerrs) && (nerrs <? lf L) then Parity (stripe_lba / cs) nerrs else Data ((stripe_lba + lps) / cs) in
      let* st' := ofold (retry_step start_chunk_addr old_nerrs (r_dv st)) (chunk_iter (Data (stripe_lba / cs)) end_cid)
                        (Rst (r_mem st) (r_buf st) (Some ex) [] (r_next st)) in
      retry_loop fuel stripe_lba (stripe_lba / cs) nerrs st'
  end.

(** read_at_one, vdev_raid.rs:1037-1248; the caller's buffer is [buffer 0 len] *)
Definition read_at_one (mm : mem) (len ulba : Z) : option (mem * bool) :=
  let uelba := ulba + len / B in
  let stripe_lba := ulba - ulba mod lps in
  let start_lba := if 0 <? faulted then stripe_lba else ulba in
  let end_lba := if 0 <? faulted then stripe_lba + lps else ulba + len / B in
  let start_cid := Data (start_lba / cs) in
  let rem := end_lba mod lps in
  let end_cid :=
    if (0 <? faulted) && (faulted <? lf L) then Parity (stripe_lba / cs) faulted
    else if 0 <? faulted then Data (end_lba / cs)
    else if (rem =? 0) || (lps - rem <? cs) then Parity (stripe_lba / cs) 0
    else Data (div_ceil end_lba cs) in
  let ex := if 0 <? faulted then Some [] else None in
  let* st := ofold (one_step ulba uelba) (chunk_iter start_cid end_cid) (Rst mm (buffer 0 len) ex [] 1) in
  let* st := retry_loop (Z.to_nat (lf L) + 2) stripe_lba (start_lba / cs) faulted st in
  let nerrs := nerrs_of (r_dv st) in
  if lf L <? nerrs then Some (r_mem st, false)
  else if 0 <? nerrs then
    match r_ex st with None => None | Some ex => read_at_reconstruction (r_mem st) (buffer 0 len) ulba ex (r_dv st) end
  else Some (r_mem st, true).

(** ** Reading parts of several stripes *)

(** per disk: the scatter-gather list, the parity buffers held back, and the first LBA to read (None: SENTINEL);
    what is left of the user's buffer; per stripe: the extra buffers; the next buffer id *)
Record mst := Mst { m_sg : Z -> list slice; m_psg : Z -> list slice; m_start : Z -> option Z; m_buf : slice; m_ex : Z -> list slice; m_next : Z }.
Definition upd {A} (g : Z -> A) (i : Z) (x : A) : Z -> A := fun j => if j =? i then x else g j.
Definition m_alloc (nstripes stripe len : Z) (st : mst) : option (slice * mst) :=
  oassert (stripe <? nstripes)
  (let s := buffer (m_next st) len in
   Some (s, Mst (m_sg st) (m_psg st) (m_start st) (m_buf st) (upd (m_ex st) stripe (m_ex st stripe ++ [s])) (m_next st + 1))).
Definition m_split (n : Z) (st : mst) : option (slice * mst) :=
  let* sr := split_to n (m_buf st) in Some (fst sr, Mst (m_sg st) (m_psg st) (m_start st) (snd sr) (m_ex st) (m_next st)).
(** sglists[disk].append(&mut psglists[disk]); sglists[disk].push(col); if start_lbas[disk] == SENTINEL ... *)
Definition m_push (disk disk_lba : Z) (col : slice) (st : mst) : mst :=
  Mst (upd (m_sg st) disk (m_sg st disk ++ m_psg st disk ++ [col])) (upd (m_psg st) disk [])
      (upd (m_start st) disk (match m_start st disk with Some l => Some l | None => Some disk_lba end)) (m_buf st) (m_ex st) (m_next st).

(** one round of the loop, vdev_raid.rs:874-985 *)
Definition multi_step (nstripes start_chunk_addr ulba uelba : Z) (st : mst) (cl : chunkid * chunkloc) : option mst :=
  let disk := l_disk (snd cl) in
  let disk_lba := l_offset (snd cl) * cs in
  let cid_lba := address (fst cl) * cs in
  let cid_end_lba := cid_lba + cs in
  let stripe := Z.max 0 (address (fst cl) - start_chunk_addr) / dm in
  match fst cl with
  | Data _ =>
    if cid_end_lba <=? ulba then
      let* s := m_alloc nstripes stripe col_len st in Some (m_push disk disk_lba (fst s) (snd s))
    else if (cid_lba <? ulba) && (0 <? faulted) then
      let datasize := Z.min ((cs - ulba mod cs) * B) (zlen (m_buf st)) in
      let* d := m_split datasize st in
      let* e := m_alloc nstripes stripe (col_len - datasize) (snd d) in
      Some (m_push disk disk_lba (fst d) (m_push disk disk_lba (fst e) (snd e)))
    else if cid_lba <? ulba then
      let* d := m_split (Z.min ((cs - ulba mod cs) * B) (zlen (m_buf st))) st in
      Some (m_push disk (disk_lba + ulba mod cs) (fst d) (snd d))
    else if cid_end_lba <=? uelba then
      let* d := m_split col_len st in Some (m_push disk disk_lba (fst d) (snd d))
    else if (cid_lba <? uelba) && (faulted =? 0) then
      let* d := m_split (zlen (m_buf st)) st in Some (m_push disk disk_lba (fst d) (snd d))
    else if cid_lba <? uelba then
      let exlen := col_len - zlen (m_buf st) in
      let* d := m_split (zlen (m_buf st)) st in
      let* e := m_alloc nstripes stripe exlen (snd d) in
      Some (m_push disk disk_lba (fst e) (m_push disk disk_lba (fst d) (snd e)))
    else
      let* s := m_alloc nstripes stripe col_len st in Some (m_push disk disk_lba (fst s) (snd s))
  | Parity _ pid =>
    if pid <? faulted then
      let* s := m_alloc nstripes stripe col_len st in Some (m_push disk disk_lba (fst s) (snd s))
    else if negb (is_nil (m_sg st disk)) then
      let* s := m_alloc nstripes stripe col_len st in
      let st' := snd s in
      Some (Mst (m_sg st') (upd (m_psg st') disk (m_psg st' disk ++ [fst s])) (m_start st') (m_buf st') (m_ex st') (m_next st'))
    else Some st
  end.

(** all the disks' reads, vdev_raid.rs:987-1001 *)
Definition read_disks (st : mst) (mm : mem) : mem * list bool :=
  fold_left (fun md d => match m_start st d with
                         | None => (fst md, snd md ++ [true])
                         | Some lba => let mr := child_readv (fst md) (m_sg st d) d lba in (fst mr, snd md ++ [snd mr]) end)
            (zrange 0 (ln L)) (mm, []).

(** recovery, one stripe after the other, vdev_raid.rs:1010-1032: the first error is the result, but every stripe is attempted *)
Definition recover_step (ulba uelba : Z) (ex : Z -> list slice) (start_stripe : Z) (dv : list bool) (acc : mem * slice * bool) (s : Z)
  : option (mem * slice * bool) :=
  let usslba := Z.max ulba (s * (dm * cs)) in
  let uselba := Z.min uelba ((s + 1) * (dm * cs)) in
  let* dr := split_to ((uselba - usslba) * B) (snd (fst acc)) in
  let end_cid := if faulted <? lf L then Parity (s * dm) faulted else Data ((s + 1) * dm) in
  let* dvs := ofold (fun l cl => match nth_error dv (Z.to_nat (l_disk (snd cl))) with Some r => Some (l ++ [r]) | None => None end)
                    (chunk_iter (Data (s * dm)) end_cid) [] in
  let* mr := read_at_reconstruction (fst (fst acc)) (fst dr) usslba (ex (s - start_stripe)) dvs in
  Some (fst mr, snd dr, snd acc && snd mr).

(** read_at_multi, vdev_raid.rs:799-1034 *)
Definition read_at_multi (mm : mem) (len ulba : Z) : option (mem * bool) :=
  let start_stripe := ulba / (cs * dm) in
  let uelba := ulba + len / B in
  let last_stripe := (uelba - 1) / (cs * dm) in
  let nstripes := last_stripe - start_stripe + 1 in
  let rlba := if 0 <? faulted then ulba - ulba mod lps else ulba in
  let start_chunk_addr := rlba / cs in
  let at_end_of_stripe := lps - cs <? uelba mod lps in
  let end_cid :=
    if (0 <? faulted) || at_end_of_stripe then
      if faulted <? lf L then Parity (last_stripe * dm) faulted else Data ((last_stripe + 1) * dm)
    else Data (div_ceil uelba cs) in
  let* st := ofold (multi_step nstripes start_chunk_addr ulba uelba) (chunk_iter (Data start_chunk_addr) end_cid)
                   (Mst (fun _ => []) (fun _ => []) (fun _ => None) (buffer 0 len) (fun _ => []) 1) in
  let mr := read_disks st mm in
  if forallb (fun b => b) (snd mr) then Some (fst mr, true)
  else
    let* r := ofold (recover_step ulba uelba (m_ex st) start_stripe (snd mr)) (zrange start_stripe (last_stripe + 1)) (fst mr, buffer 0 len, true) in
    Some (fst (fst r), snd r).

(** the part of VdevRaidApi::read_at that goes to the disks, vdev_raid.rs:2223-2231 (SB_Model.v has the stripe buffers) *)
Definition read_disks_at (mm : mem) (len lba : Z) : option (mem * bool) :=
  let end_lba := lba + (len - 1) / B in
  if lba / (cs * dm) =? end_lba / (cs * dm) then read_at_one mm len lba else read_at_multi mm len lba.
End Read.
End Raid.
