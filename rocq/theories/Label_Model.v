(** Labels (bfffs-core/src/label.rs) and the structures in them.

    A disk is the list of its bytes.  The hash MetroHash64 is a parameter: a
    function of the bytes written to the hasher, in order (util.rs 50-71).  The
    encoding of the structures is that of the crate speedy, little endian:
    integers as bytes, a Vec or String as a u32 length and its elements, an enum
    as a u32 tag.  A panic is [None]. *)
From Verif Require Import Common SG_Model FSM_Model.

(** ** Integers as bytes *)

Fixpoint le_bytes (n : nat) (x : Z) : list Z :=
  match n with O => [] | S n => x mod 256 :: le_bytes n (x / 256) end.

Definition le_val (l : list Z) : Z := fold_right (fun b a => b + 256 * a) 0 l.

Definition be_bytes (n : nat) (x : Z) : list Z := rev (le_bytes n x).
Definition be_val (l : list Z) : Z := le_val (rev l).

(** ** Formats: the derived [Writable] and [Readable] of speedy *)

Record fmt (T : Type) := mkfmt { enc : T -> list Z; dec : list Z -> option (T * list Z) }.
Arguments mkfmt {T}. Arguments enc {T}. Arguments dec {T}.

Definition f_bytes (n : Z) : fmt (list Z) :=
  mkfmt (fun b => b) (fun s => if zlen s <? n then None else Some (ztake n s, zdrop n s)).

Definition f_uint (n : nat) : fmt Z :=
  mkfmt (le_bytes n) (fun s => if zlen s <? Z.of_nat n then None else Some (le_val (ztake (Z.of_nat n) s), zdrop (Z.of_nat n) s)).

Definition f_pair {A B} (a : fmt A) (b : fmt B) : fmt (A * B) :=
  mkfmt (fun p => enc a (fst p) ++ enc b (snd p))
        (fun s => let* (x, s) := dec a s in let* (y, s) := dec b s in Some ((x, y), s)).

Definition f_map {A B} (a : fmt A) (f : A -> B) (g : B -> A) : fmt B :=
  mkfmt (fun y => enc a (g y)) (fun s => let* (x, s) := dec a s in Some (f x, s)).

Fixpoint dec_n {A} (a : fmt A) (n : nat) (s : list Z) : option (list A * list Z) :=
  match n with
  | O => Some ([], s)
  | S n => let* (x, s) := dec a s in let* (l, s) := dec_n a n s in Some (x :: l, s)
  end.

Definition f_vec {A} (a : fmt A) : fmt (list A) :=
  mkfmt (fun l => le_bytes 4 (zlen l) ++ flat_map (enc a) l)
        (fun s => let* (n, s) := dec (f_uint 4) s in dec_n a (Z.to_nat n) s).

Definition u8 := f_uint 1.
Definition u16 := f_uint 2.
Definition u32 := f_uint 4.
Definition u64 := f_uint 8.
Definition f_uuid := f_bytes 16.               (* types.rs 403-412 *)

(** vdev_block.rs 1170-1183 *)
Record block_label := mkblock { b_uuid : list Z; b_lpz : Z; b_lbas : Z; b_sms : Z; b_txg : Z }.
Definition f_block : fmt block_label :=
  f_map (f_pair f_uuid (f_pair u64 (f_pair u64 (f_pair u64 u32))))
    (fun '(u, (a, (b, (c, d)))) => mkblock u a b c d) (fun l => (b_uuid l, (b_lpz l, (b_lbas l, (b_sms l, b_txg l))))).

(** mirror.rs 58-63 *)
Record mirror_label := mkmirror { m_uuid : list Z; m_children : list (list Z) }.
Definition f_mirror : fmt mirror_label :=
  f_map (f_pair f_uuid (f_vec f_uuid)) (fun '(u, c) => mkmirror u c) (fun l => (m_uuid l, m_children l)).

(** raid/mod.rs 52-56, raid/null_raid.rs 29-35, raid/vdev_raid.rs 427-436.  The
    i16s are kept as the u16 with the same bits; the enum LayoutAlgorithm (57-61)
    has one value, with tag 0. *)
Inductive raid_label :=
| LNull (uuid child : list Z)
| LRaid (uuid : list Z) (chunksize k f : Z) (children : list (list Z)).

Definition f_null := f_pair f_uuid f_uuid.
Definition f_raid' := f_pair f_uuid (f_pair u64 (f_pair u16 (f_pair u16 (f_pair u32 (f_vec f_uuid))))).

Definition f_raid : fmt raid_label :=
  mkfmt (fun l => match l with
                  | LNull u c => enc u32 0 ++ enc f_null (u, c)
                  | LRaid u cs k f ch => enc u32 1 ++ enc f_raid' (u, (cs, (k, (f, (0, ch)))))
                  end)
        (fun s => let* (t, s) := dec u32 s in
                  if t =? 0 then let* (p, s) := dec f_null s in Some (LNull (fst p) (snd p), s)
                  else if t =? 1 then
                    let* (p, s) := dec f_raid' s in
                    let '(u, (cs, (k, (f, (a, ch))))) := p in
                    if a =? 0 then Some (LRaid u cs k f ch, s) else None
                  else None).

(** pool.rs 61-71.  The name is the list of its UTF-8 bytes. *)
Record pool_label := mkpool { p_name : list Z; p_uuid : list Z; p_children : list (list Z) }.
Definition f_pool : fmt pool_label :=
  f_map (f_pair (f_vec u8) (f_pair f_uuid (f_vec f_uuid))) (fun '(n, (u, c)) => mkpool n u c)
    (fun l => (p_name l, (p_uuid l, p_children l))).

(** types.rs 365-372, ddml/mod.rs 40-59 *)
Record drp_label := mkd { q_cluster : Z; q_lba : Z; q_compressed : Z; q_lsize : Z; q_csize : Z; q_checksum : Z }.
Definition f_drp : fmt drp_label :=
  f_map (f_pair u16 (f_pair u64 (f_pair u8 (f_pair u32 (f_pair u32 u64)))))
    (fun '(a, (b, (c, (d, (e, f))))) => mkd a b c d e f)
    (fun l => (q_cluster l, (q_lba l, (q_compressed l, (q_lsize l, (q_csize l, q_checksum l)))))).

(** tree/mod.rs 66-78, 96-101; the limits (tree/node.rs 732-753) are four u16 and
    a u64 *)
Record tree_label (A : Type) := mktree { t_height : Z; t_reserved : list Z; t_limits : Z * (Z * (Z * (Z * Z))); t_root : A; t_txgs : Z * Z }.
Arguments mktree {A}. Arguments t_height {A}. Arguments t_reserved {A}. Arguments t_limits {A}. Arguments t_root {A}. Arguments t_txgs {A}.
Definition f_tree {A} (a : fmt A) : fmt (tree_label A) :=
  f_map (f_pair u8 (f_pair (f_bytes 7) (f_pair (f_pair u16 (f_pair u16 (f_pair u16 (f_pair u16 u64)))) (f_pair a (f_pair u32 u32)))))
    (fun '(h, (r, (l, (x, t)))) => mktree h r l x t) (fun l => (t_height l, (t_reserved l, (t_limits l, (t_root l, t_txgs l))))).

(** idml/idml.rs 678-685 *)
Record idml_label := mki { i_alloct : tree_label drp_label; i_next : Z; i_ridt : tree_label drp_label; i_txg : Z }.
Definition f_idml : fmt idml_label :=
  f_map (f_pair (f_tree f_drp) (f_pair u64 (f_pair (f_tree f_drp) u32))) (fun '(a, (n, (r, t))) => mki a n r t)
    (fun l => (i_alloct l, (i_next l, (i_ridt l, i_txg l)))).

(** database/database.rs 136-139 *)
Definition f_db : fmt (tree_label Z) := f_tree u64.

Record label := mklabel { l_block : block_label; l_mirror : mirror_label; l_raid : raid_label; l_pool : pool_label;
                          l_idml : idml_label; l_db : tree_label Z }.

(** The order in which the layers add their part (database.rs 280-286,
    idml.rs 490-508, pool.rs 530-545, vdev_raid.rs 1681-1694 or
    null_raid.rs 74-84, mirror.rs 825-845, vdev_block.rs 1100-1114). *)
Definition label_parts (l : label) : list (list Z) :=
  [enc f_db (l_db l); enc f_idml (l_idml l); enc f_pool (l_pool l); enc f_raid (l_raid l); enc f_mirror (l_mirror l); enc f_block (l_block l)].

(** The order in which they are read: vdev_block.rs 1197-1212, mirror.rs 76-120
    and so on upwards.  A part that cannot be decoded is a panic ([unwrap]). *)
Definition label_parse (s : list Z) : option label :=
  let* (b, s) := dec f_block s in let* (m, s) := dec f_mirror s in let* (r, s) := dec f_raid s in
  let* (p, s) := dec f_pool s in let* (i, s) := dec f_idml s in let* (d, s) := dec f_db s in
  Some (mklabel b m r p i d).

(** ** Writing and reading *)

(** label.rs 35-45 *)
Definition MAGIC : list Z := [66; 70; 70; 70; 83; 32; 86; 100; 101; 118; 0; 0; 0; 0; 0; 0].
Definition LABEL_LBAS : Z := 4.
Definition LABEL_SIZE : Z := LABEL_LBAS * BYTES_PER_LBA.

Inductive lerr := EINVAL | EINTEGRITY | EIO.
Inductive lres (A : Type) := LOk (x : A) | LErr (e : lerr).
Arguments LOk {A}. Arguments LErr {A}.

Section Label.
Context (H : list Z -> Z).

(** label.rs 152-171: [into_sglist]; [parts] in the order of the calls of
    [serialize] (140-149) *)
Definition into_sglist (parts : list (list Z)) : sglist :=
  let contents := rev parts in
  let len := be_bytes 8 (zlen (concat contents)) in
  (MAGIC ++ be_bytes 8 (H (len ++ concat contents)) ++ len) :: contents.

(** vdev_file.rs 497-503: the bytes written, at LBA [4 * i] *)
Definition label_image (parts : list (list Z)) : option (list Z) :=
  let* sg := copy_and_pad_sglist (into_sglist parts) in Some (concat sg).

Definition splice (off : Z) (data dev : list Z) : list Z := ztake off dev ++ data ++ zdrop (off + zlen data) dev.

Definition write_label (i : Z) (parts : list (list Z)) (dev : list Z) : option (list Z) :=
  let* b := label_image parts in Some (splice (i * LABEL_SIZE) b dev).

(** label.rs 69-108: [LabelReader::new]; the result is what the cursor has still
    to read.  The sum [contents_start + contents_len] wraps in a release build;
    [get] of a range whose end is before its start, or past the buffer, is None. *)
Definition label_new (b : list Z) : lres (list Z) :=
  if zlen b <? 32 then LErr EINVAL
  else if negb (if list_eq_dec Z.eq_dec (ztake 16 b) MAGIC then true else false) then LErr EINVAL
  else
    let sum := be_val (ztake 8 (zdrop 16 b)) in
    let len := be_val (ztake 8 (zdrop 24 b)) in
    let stop := (32 + len) mod 2 ^ 64 in
    if (stop <? 32) || (zlen b <? stop) then LErr EINVAL
    else if sum =? H (be_bytes 8 len ++ ztake (stop - 32) (zdrop 32 b)) then LOk (zdrop 32 b)
    else LErr EINTEGRITY.

(** What a read of the [i]th label area returns from a disk that works. *)
Definition area (i : Z) (dev : list Z) : list Z := ztake LABEL_SIZE (zdrop (i * LABEL_SIZE) dev).

(** vdev_block.rs 1215-1243: [read_label], given the outcome of each read *)
Definition read_label (rd : Z -> lres (list Z)) : lres (list Z) :=
  match rd 0 with
  | LOk b => match label_new b with
             | LOk s => LOk s
             | LErr _ => match rd 1 with LOk b => label_new b | LErr e => LErr e end
             end
  | LErr _ => match rd 1 with LOk b => label_new b | LErr e => LErr e end
  end.

Definition from_disk (dev : list Z) (i : Z) : lres (list Z) := LOk (area i dev).

End Label.
