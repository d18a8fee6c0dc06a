(** The direct data management layer: compression, checksums, and records kept
    at physical addresses (bfffs-core/src/dml.rs and ddml/).

    Bytes are [Z]s.  The compression and hash libraries (lz4_flex, zstd,
    byteshuffle, metrohash) are parameters.  The pool has a single cluster, so
    that a physical block address is an LBA. *)
From Verif Require Import Common ZMap FSM_Model.

(** types.rs: [BYTES_PER_LBA] *)
Definition BPL : Z := 4096.

Definition div_ceil (a b : Z) : Z := (a + b - 1) / b.

Inductive err := ENOSPC | EINTEGRITY | ENOENT | EIO.
Inductive res (A : Type) := Ok (a : A) | Err (e : err).
Arguments Ok {A}. Arguments Err {A}.

(** The external libraries.  [zstd::bulk::compress] is taken never to fail (the
    code unwraps it). *)
Record codecs := {
  lz4_c : list Z -> list Z;
  lz4_d : list Z -> Z -> option (list Z);
  zstd_c : list Z -> list Z;
  zstd_d : list Z -> Z -> option (list Z);
  shuf : Z -> list Z -> list Z;
  unshuf : Z -> list Z -> list Z;
  ck : list Z -> Z
}.

(** dml.rs 20-31: [enum Compression]; [None] for no type size *)
Inductive compression := CNone | CLZ4 (ts : option Z) | CZstd (ts : option Z).

(** ddml/mod.rs 38-59: [struct DRP] *)
Record drp := mkdrp { d_pba : Z; d_compressed : bool; d_lsize : Z; d_csize : Z; d_ck : Z }.

(** ddml/mod.rs 65-73 *)
Definition as_uncompressed (d : drp) : drp := mkdrp (d_pba d) false (d_csize d) (d_csize d) (d_ck d).

(** ddml/mod.rs 76-78 *)
Definition asize (d : drp) : Z := div_ceil (d_csize d) BPL.

(** ddml/mod.rs 84-88 *)
Definition into_compressed (new old : drp) : drp :=
  mkdrp (d_pba new) (d_compressed old) (d_lsize old) (d_csize new) (d_ck new).

Section Codec.
Context (K : codecs).

(** dml.rs 43, 139-148: the tag, as speedy writes it: the variant as a
    little-endian [u32], then the [u8]; a missing type size is 0. *)
Definition TAGSIZE : Z := 5.

Definition tag_bytes (c : compression) : list Z :=
  match c with
  | CNone => [] (* unimplemented!; never reached *)
  | CLZ4 ts => [0; 0; 0; 0; match ts with Some t => t | None => 0 end]
  | CZstd ts => [1; 0; 0; 0; match ts with Some t => t | None => 0 end]
  end.

(** dml.rs 150-157, and speedy's decoding of the tag *)
Definition tag_read (l : list Z) : option compression :=
  match l with
  | [a; b; c; d; t] =>
      let ts := if t =? 0 then None else Some t in
      let v := a + 256 * (b + 256 * (c + 256 * d)) in
      if v =? 0 then Some (CLZ4 ts) else if v =? 1 then Some (CZstd ts) else None
  | _ => None
  end.

(** dml.rs 55-77: the compressed body *)
Definition squeeze (c : compression) (b : list Z) : list Z :=
  match c with
  | CNone => b
  | CLZ4 (Some t) => lz4_c K (shuf K t b)
  | CLZ4 None => lz4_c K b
  | CZstd (Some t) => zstd_c K (shuf K t b)
  | CZstd None => zstd_c K b
  end.

(** dml.rs 50-90: [Compression::compress] *)
Definition compress (c : compression) (b : list Z) : list Z * compression :=
  match c with
  | CNone => (b, CNone)
  | _ =>
      if zlen b <=? BPL then (b, CNone) else
      let buf := squeeze c b ++ tag_bytes c in
      if div_ceil (zlen buf) BPL <? div_ceil (zlen b) BPL then (buf, c) else (b, CNone)
  end.

(** dml.rs 93-124: [Compression::decompress]; [None] is the panic when the
    input is shorter than a tag. *)
Definition decompress (b : list Z) (lsize : Z) : option (res (list Z)) :=
  oassert (TAGSIZE <=? zlen b)
  (let body := ztake (zlen b - TAGSIZE) b in
   let r o := match o with Some x => Ok x | None => Err EINTEGRITY end in
   Some match tag_read (zdrop (zlen b - TAGSIZE) b) with
        | Some (CLZ4 (Some t)) => r (option_map (unshuf K t) (lz4_d K body lsize))
        | Some (CLZ4 None) => r (lz4_d K body lsize)
        | Some (CZstd (Some t)) => r (option_map (unshuf K t) (zstd_d K body lsize))
        | Some (CZstd None) => r (zstd_d K body lsize)
        | Some CNone | None => Err EINTEGRITY
        end).

(** dml.rs 127-129 *)
Definition is_compressed (c : compression) : bool := match c with CNone => false | _ => true end.

(** ddml.rs 335-364: the loop over the reconstructions.  Each is checksummed
    and decompressed at its full length; an uncompressed one is copied over the
    buffer of [d_csize] bytes, which panics if the lengths differ. *)
Fixpoint try_recons (d : drp) (rs : list (list Z)) : option (res (list Z)) :=
  match rs with
  | [] => Some (Err EINTEGRITY)
  | r :: rest =>
      if ck K r =? d_ck d then
        if d_compressed d then
          let* x := decompress r (d_lsize d) in
          match x with Ok b => Some (Ok b) | Err _ => try_recons d rest end
        else oassert (zlen r =? d_csize d) (Some (Ok r))
      else try_recons d rest
  end.

(** ddml.rs 301-369: [read], given what [Pool::read] and [Pool::read_long]
    deliver. *)
Definition ddml_read (d : drp) (first : res (list Z)) (recons : res (list (list Z))) : option (res (list Z)) :=
  match first with
  | Err e => Some (Err e)
  | Ok buf =>
      let db := ztake (d_csize d) buf in
      if ck K db =? d_ck d then
        if d_compressed d then decompress db (d_lsize d) else Some (Ok db)
      else match recons with
           | Ok rs => try_recons d rs
           | Err e => Some (Err e)
           end
  end.

(** mirror.rs 570-595: [read_long] of a mirror; [l] is what each present disk
    delivers, in the order the reads complete. *)
Definition mirror_read_long (l : list (res (list Z))) : res (list (list Z)) :=
  if zlen l <=? 1 then Err EINTEGRITY else
  let oks := flat_map (fun r => match r with Ok b => [b] | Err _ => [] end) l in
  match oks, l with
  | [], Err e :: _ => Err e
  | _, _ => Ok oks
  end.

(** null_raid.rs 212-226 and C55: writes are padded with zeros to a whole number
    of blocks. *)
Definition pad (b : list Z) : list Z := b ++ zrepeat 0 (div_ceil (zlen b) BPL * BPL - zlen b).

Definition write_data (disk : Z -> list Z) (lba : Z) (b : list Z) : Z -> list Z :=
  fun l => if (lba <=? l) && (l <? lba + div_ceil (zlen b) BPL)
           then ztake BPL (zdrop (BPL * (l - lba)) (pad b)) else disk l.

Definition read_data (disk : Z -> list Z) (lba n : Z) : list Z := concat (map disk (zrange lba (lba + n))).

(** ddml.rs 172-188: [struct DDML]: the pool and the cache.  [disk] is what the
    pool's blocks hold; [dcache] are the cached records, by address. *)
Record ddml := mkddml { dcl : cluster; disk : Z -> list Z; dcache : list (Z * list Z) }.

Context (v : vdev) (junk : Z -> list Z).

(** The effect of the vdev calls on the blocks.  An erased zone holds [junk].
    The padding written by flushing and finishing a zone is left out: it goes
    to blocks that belong to no record. *)
Definition dev_apply (b : list Z) (dk : Z -> list Z) (o : vop) : Z -> list Z :=
  match o with
  | VWrite _ lba _ => write_data dk lba b
  | VErase z => fun l => if (fst (v_lim v z) <=? l) && (l <? snd (v_lim v z)) then junk l else dk l
  | _ => dk
  end.

(** ddml.rs 407-441: [put_common], with pool.rs 512-527 [write] *)
Definition put_common (b : list Z) (c : compression) (txg : Z) (s : ddml) : option (ddml * res drp) :=
  oassert (zlen b <? U32MAX)
  (let (cb, c') := compress c b in
   let* (cl, r, o) := write v (div_ceil (zlen cb) BPL) txg (dcl s) in
   let s' := mkddml cl (fold_left (dev_apply cb) o (disk s)) (dcache s) in
   match r with
   | WNoSpace => Some (s', Err ENOSPC)
   | WOk lba => Some (s', Ok (mkdrp lba (is_compressed c') (zlen b) (zlen cb) (ck K cb)))
   end).

(** ddml.rs 443-450 *)
Definition put_direct := put_common.

(** ddml.rs 543-558: [put] *)
Definition ddml_put (b : list Z) (c : compression) (txg : Z) (s : ddml) : option (ddml * res drp) :=
  let* (s, r) := put_common b c txg s in
  match r with
  | Ok d => Some (mkddml (dcl s) (disk s) (zm_set (d_pba d) b (dcache s)), Ok d)
  | Err e => Some (s, Err e)
  end.

(** The disks are intact in this model, so that all reconstructions are what the
    first read delivered. *)
Definition read_blocks (d : drp) (s : ddml) : option (res (list Z)) :=
  let buf := read_data (disk s) (d_pba d) (asize d) in
  ddml_read d (Ok buf) (Ok [buf]).

(** ddml.rs 273-280: [get_direct] *)
Definition get_direct := read_blocks.

(** ddml.rs 512-525: [get] with cache.rs [get_or_insert!] (without concurrent
    readers; see C20) *)
Definition ddml_get (d : drp) (s : ddml) : option (ddml * res (list Z)) :=
  match zm_get (d_pba d) (dcache s) with
  | Some b => Some (s, Ok b)
  | None =>
      let* r := get_direct d s in
      match r with
      | Ok b => Some (mkddml (dcl s) (disk s) (zm_set (d_pba d) b (dcache s)), Ok b)
      | Err e => Some (s, Err e)
      end
  end.

(** ddml.rs 217-224: [delete_direct] *)
Definition delete_direct (d : drp) (s : ddml) : option ddml :=
  let* c := free v (d_pba d) (asize d) (dcl s) in
  Some (mkddml c (disk s) (dcache s)).

(** ddml.rs 508-510: [evict]; also the cache dropping a record by itself *)
Definition ddml_evict (d : drp) (s : ddml) : ddml :=
  mkddml (dcl s) (disk s) (zm_del (d_pba d) (dcache s)).

(** ddml.rs 496-506: [delete] *)
Definition ddml_delete (d : drp) (s : ddml) : option ddml := delete_direct d (ddml_evict d s).

(** ddml.rs 386-400: [pop_direct] *)
Definition pop_direct (d : drp) (s : ddml) : option (ddml * res (list Z)) :=
  let* r := read_blocks d s in
  match r with
  | Ok b => let* s := delete_direct d s in Some (s, Ok b)
  | Err e => Some (s, Err e)
  end.

(** ddml.rs 527-541: [pop] *)
Definition ddml_pop (d : drp) (s : ddml) : option (ddml * res (list Z)) :=
  match zm_get (d_pba d) (dcache s) with
  | Some b => let* s := delete_direct d (ddml_evict d s) in Some (s, Ok b)
  | None => pop_direct d s
  end.

(** ddml.rs 197-202: [advance_transaction] and [flush] hand on to the cluster. *)
Definition ddml_advance (s : ddml) : ddml :=
  let (c, o) := advance (dcl s) in mkddml c (fold_left (dev_apply []) o (disk s)) (dcache s).

Definition ddml_flush (s : ddml) : option ddml :=
  let* (c, o) := flush v 0 (dcl s) in
  let* (c, o') := flush v 1 c in
  Some (mkddml c (fold_left (dev_apply []) (o ++ o') (disk s)) (dcache s)).

(** ddml.rs 375-380 [open]: the cluster is read back, the cache starts empty. *)
Definition ddml_remount (s : ddml) : option ddml :=
  let* (c, o) := reopen v (dcl s) in
  Some (mkddml c (fold_left (dev_apply []) o (disk s)) []).

(** ddml.rs 212-215 [create] *)
Definition ddml_create (dk : Z -> list Z) : ddml := mkddml (cluster_create v) dk [].

End Codec.
