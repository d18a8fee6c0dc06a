(** Listing a directory: Fs::readdir, bfffs-core/src/fs.rs:1853-1972, and FuseFs::readdir, bfffs/src/bin/bfffsd/fs.rs:768-812,
    over the directories of Names_Model.v. *)
From Verif Require Import Common HTable_Model Names_Model.

Notation item := (name * ent)%type.
Notation cells := (list (Z * @cell name ent)).

(** Cursor, fs.rs:1857-1876: a u64 made of 56 bits of the key's offset and 8 bits of index.  [offset << 8] loses the high bits. *)
Definition cursor (offset idx : Z) : Z := Z.lor (Z.shiftl offset 8 mod 2 ^ 64) idx.
Definition c_offset (c : Z) : Z := Z.shiftr c 8.
Definition c_idx (c : Z) : Z := Z.land c 255.

(** FSKey::dirent_range, fs_tree.rs:239-244, and the range query (C27): the cells with keys from [offs] on, in order *)
Fixpoint ins (x : Z * @cell name ent) (l : cells) : cells :=
  match l with
  | [] => [x]
  | y :: r => if fst x <=? fst y then x :: l else y :: ins x r
  end.
Definition sorted (l : cells) : cells := fold_right ins [] l.
Definition range (l : dir) (offs : Z) : cells := filter (fun kc => offs <=? fst kc) (sorted l).

(** ReaddirStream, fs.rs:1893-1900.  The bucket is stored back to front, since entries are popped from the end of the vector. *)
Record rstream := RStream { r_skip : Z; r_rq : cells; r_bucketing : option (list item * Z * Z) }.
Inductive polled := PItem (x : item) (d_off : Z) (st : rstream) | PEnd | PPanic.

(** pop_bucket, fs.rs:1907-1920; [returned] is a u8 and wraps in release builds *)
Definition pop_bucket (skip : Z) (rq : cells) (bucket : list item) (kofs returned : Z) : polled :=
  match bucket with
  | [] => PPanic
  | x :: b =>
      let returned := (returned + 1) mod 256 in
      match b with
      | [] => PItem x (cursor (kofs + 1) 0) (RStream skip rq None)
      | _ => PItem x (cursor kofs returned) (RStream skip rq (Some (b, kofs, returned)))
      end
  end.
(** poll_next, fs.rs:1925-1961 *)
Fixpoint poll_rq (skip : Z) (rq : cells) : polled :=
  match rq with
  | [] => PEnd
  | (k, Single x) :: r => PItem x (cursor (k + 1) 0) (RStream skip r None)
  | (k, Bucket b) :: r =>
      match skipn (Z.to_nat skip) (rev b) with
      | [] => poll_rq 0 r
      | b' => pop_bucket 0 r b' k 0
      end
  | (_, Other) :: _ => PPanic
  end.
Definition poll_next (st : rstream) : polled :=
  match r_bucketing st with
  | Some (b, kofs, returned) => pop_bucket (r_skip st) (r_rq st) b kofs returned
  | None => poll_rq (r_skip st) (r_rq st)
  end.
(** fs.rs:1964-1971 *)
Definition opendir (l : dir) (soffs : Z) : rstream := RStream (c_idx soffs) (range l (c_offset soffs)) None.

(** at most [n] entries of the stream, each with its [d_off]; [None] is a panic *)
Fixpoint take (n : nat) (st : rstream) : option (list (item * Z)) :=
  match n with
  | O => Some []
  | S n => match poll_next st with
           | PItem x o st => match take n st with Some r => Some ((x, o) :: r) | None => None end
           | PEnd => Some []
           | PPanic => None
           end
  end.
Definition piece (l : dir) (soffs : Z) (n : nat) : option (list (item * Z)) := take n (opendir l soffs).
(** FuseFs::readdir checks [d_off >= soffset] of each entry *)
Definition fuse_piece (l : dir) (soffs : Z) (n : nat) : option (list (item * Z)) :=
  match piece l soffs n with
  | Some r => if forallb (fun xo => soffs <=? snd xo) r then Some r else None
  | None => None
  end.

(** A reader resumes at the [d_off] of the last entry it has received.  The directory may be a different one each time. *)
Definition next_offset (c : Z) (r : list (item * Z)) : Z := match rev r with (_, o) :: _ => o | [] => c end.
Fixpoint session (get : dir -> Z -> nat -> option (list (item * Z))) (c : Z) (plan : list (dir * nat)) : option (list (item * Z) * Z) :=
  match plan with
  | [] => Some ([], c)
  | (l, n) :: p => match get l c n with
                   | None => None
                   | Some r => match session get (next_offset c r) p with Some (r', c') => Some (r ++ r', c') | None => None end
                   end
  end.
