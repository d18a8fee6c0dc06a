(** Reads of a file while the transaction group is synced: Fs::read, fs.rs:1810-1847, do_read, fs.rs:700-770, the range query
    it uses, tree/tree/mod.rs:104-215, and InlineExtent::flush, fs_tree.rs:1060-1074, in steps.

    A range query copies the values of one leaf at a time (tree/node.rs:470-490) and hands them out one by one; a copy of an
    inline extent shares its buffer with the tree, being an Arc (fs_tree.rs:1046-1051).  A sync takes the buffer of every long
    inline extent for itself, which panics while there is another owner (fs_tree.rs:1065).
    Writes to the file are left out: the kernel runs none during a read of the same file.  So the two owners of a buffer are the
    tree and copies made while the extent was inline, and a copy is known by its key.
    Which keys are in which leaf is left open: a query may get any part of the range at a time.  The sync may flush the
    extents one by one in any order, although it holds the leaf while it flushes its extents.
    The extents and blobs of the file are as in [File_Model]. *)
From Verif Require Import Common ZMap File_Model.

(** a read: not begun; or with the end of the range, what is left of the tree to be asked for (RangeQuery::cursor), the
    values waiting (RangeQuery::data), the blob waited for (dataset.get_blob), and the buffers, position and number of records
    so far; or with its result, [None] being an error *)
Inductive rphase :=
| RStart
| RGo (size64 : Z) (cursor : option Z) (queue : list (Z * extent)) (wait : option (Z * Z)) (sg : list (list Z)) (p rec : Z)
| RDone (result : option (list (list Z))).
Record reader := Reader { r_off : Z; r_size : Z; r_ph : rphase }.

(** one step of a read; a query gets the keys below [b] next.  The whole is [None] if it panics. *)
Definition read_step (rs fsize : Z) (d : ds) (r : reader) (b : Z) : option reader :=
  let offset := r_off r in
  let ret ph := Some (Reader (r_off r) (r_size r) ph) in
  match r_ph r with
  | RStart => (* fs.rs:715-722 *)
      let size64 := Z.min (r_size r) (Z.max 0 (fsize - offset)) in
      ret (RGo size64 (Some (offset - offset mod rs)) [] None [] offset 0)
  | RGo size64 cursor queue wait sg p rec =>
      match wait, queue, cursor with
      | Some (k, rid), _, _ => (* fs.rs:733-736: the blob arrives *)
          match zm_get rid (d_blobs d) with
          | None => ret (RDone None)
          | Some buf => match read_fold offset size64 sg p rec [(k, buf)] with
                        | None => None
                        | Some (sg', p') => ret (RGo size64 cursor queue None sg' p' (rec + 1))
                        end
          end
      | None, (k, Inline buf) :: queue, _ => (* fs.rs:728-731: the copy is dropped *)
          match read_fold offset size64 sg p rec [(k, buf)] with
          | None => None
          | Some (sg', p') => ret (RGo size64 cursor queue None sg' p' (rec + 1))
          end
      | None, (k, Blob rid _) :: queue, _ => ret (RGo size64 cursor queue (Some (k, rid)) sg p rec) (* fs.rs:733 *)
      | None, [], Some c => (* tree/tree/mod.rs:176-205: one more leaf *)
          let end_ := offset + size64 in
          if b <? end_ then ret (RGo size64 (Some (Z.max c b)) (ds_range d c (Some b)) None sg p rec)
          else ret (RGo size64 None (ds_range d c (Some end_)) None sg p rec)
      | None, [], None => (* fs.rs:762-768 *)
          ret (RDone (Some (fst (fill_holes (Z.to_nat (size64 - (p - offset))) sg p (offset + size64)))))
      end
  | RDone _ => Some r
  end.

(** a read has a copy of the inline extent at [k] *)
Definition holds (k : Z) (r : reader) : bool :=
  match r_ph r with
  | RGo _ _ queue _ _ _ _ => existsb (fun p => match snd p with Inline _ => fst p =? k | Blob _ _ => false end) queue
  | _ => false
  end.
Definition busy (r : reader) : bool := match r_ph r with RGo _ _ _ _ _ _ _ => true | _ => false end.

(** fs_tree.rs:1060-1082 InlineExtent::flush of the extent at [k]; [None] if the buffer has another owner *)
Definition flush_at (d : ds) (rds : list reader) (k : Z) : option ds :=
  match zm_get k (d_ext d) with
  | Some (Inline b) =>
      if BLOB_THRESHOLD <? zlen b then
        if existsb (holds k) rds then None
        else Some (Ds (zm_set k (Blob (d_next d) (zlen b)) (d_ext d)) (zm_set (d_next d) b (d_blobs d)) (d_next d + 1) (d_freed d))
      else Some d
  | _ => Some d
  end.

(** the next step is by a read or by the sync *)
Inductive choice := Go (i : nat) (b : Z) | Flush (k : Z).
(** fs.rs:1817-1847: if access times are kept ([atime]) then a read holds a transaction, and syncs wait for it
    (database/database.rs fswrite, idml.rs txg) *)
Definition sys_step (atime : bool) (rs fsize : Z) (st : ds * list reader) (c : choice) : option (ds * list reader) :=
  let (d, rds) := st in
  match c with
  | Go i b => match nth_error rds i with
              | None => Some st
              | Some r => match read_step rs fsize d r b with Some r' => Some (d, list_upd rds i r') | None => None end
              end
  | Flush k => if atime && existsb busy rds then Some st
               else match flush_at d rds k with Some d' => Some (d', rds) | None => None end
  end.
Fixpoint sys (atime : bool) (rs fsize : Z) (st : ds * list reader) (cs : list choice) : option (ds * list reader) :=
  match cs with
  | [] => Some st
  | c :: r => match sys_step atime rs fsize st c with Some st' => sys atime rs fsize st' r | None => None end
  end.
