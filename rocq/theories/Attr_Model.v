(** Attributes and timestamps of the objects of a file system: fs.rs do_create, create_ts_callback, mkdir, link, do_unlink, unlink, do_rmdir,
    rmdir, rename, do_setattr, setattr, write, deallocate, read, do_getattr, and bfffsd/fs.rs do_getattr, setattr.

    Simplifications, for the whole file:
    - the tree is the map from inode number to inode.  Directory entries are left out: an operation is given the numbers of the objects
      it would find by name (C60 says which); so are extents and attributes, whose effect on the allocated bytes is given (C35).
    - a time is an integer (nanoseconds).  [ts n] is what the n-th call of Timespec::now of an operation returns.
    - futures that are joined touch different inodes and are run one after the other, but for those of link.
    - [None] is a panic. *)
From Verif Require Import Common ZMap.

(** fs_tree.rs:800-821 FileType *)
Inductive ftype := Fifo | Char (dev : Z) | Dir | Block (dev : Z) | Reg (rslog : Z) | Lnk (path : list Z) | Socket.
(** fs_tree.rs:952-998 Inode *)
Record inode := Inode { i_size : Z; i_bytes : Z; i_nlink : Z; i_flags : Z; i_atime : Z; i_mtime : Z; i_ctime : Z; i_birth : Z;
  i_uid : Z; i_gid : Z; i_perm : Z; i_type : ftype }.
(** fs.rs:468-488 SetAttr *)
Record sattr := SAttr { a_size : option Z; a_atime : option Z; a_mtime : option Z; a_ctime : option Z; a_birth : option Z;
  a_perm : option Z; a_uid : option Z; a_gid : option Z; a_flags : option Z }.
Definition no_attr : sattr := SAttr None None None None None None None None None.

Definition fs := list (Z * inode).
Definition u64 (z : Z) : Z := z mod 2 ^ 64.
Definition or {A} (o : option A) (x : A) : A := match o with Some y => y | None => x end.
(** get, change, insert *)
Definition change (s : fs) (i : Z) (f : inode -> inode) : option fs :=
  match zm_get i s with Some v => Some (zm_set i (f v) s) | None => None end.

(** fs.rs:809-848 do_setattr; [freed] is what do_deallocate returns *)
Definition setattr_inode (a : sattr) (freed : Z) (v : inode) : inode :=
  let new_size := or (a_size a) (i_size v) in
  let ctime := or (a_ctime a) (i_ctime v) in
  let mtime := match a_mtime a with Some t => t | None => match a_size a with Some _ => ctime | None => i_mtime v end end in
  let bytes := if new_size <? i_size v then Z.max 0 (i_bytes v - freed) else i_bytes v in
  Inode new_size bytes (i_nlink v) (or (a_flags a) (i_flags v)) (or (a_atime a) (i_atime v)) mtime ctime (or (a_birth a) (i_birth v))
        (or (a_uid a) (i_uid v)) (or (a_gid a) (i_gid v)) (or (a_perm a) (i_perm v)) (i_type v).
Definition is_reg (t : ftype) : bool := match t with Reg _ => true | _ => false end.
Definition do_setattr (s : fs) (i : Z) (a : sattr) (freed : Z) : option fs :=
  match zm_get i s with
  | None => None
  | Some v => if (or (a_size a) (i_size v) <? i_size v) && negb (is_reg (i_type v)) then None   (* assert DT_REG *)
              else Some (zm_set i (setattr_inode a freed v) s)
  end.
Definition times (now : Z) : sattr := SAttr None None (Some now) (Some now) None None None None None.
Definition ctime_only (now : Z) : sattr := SAttr None None None (Some now) None None None None None.

(** inodes with new timestamps and link count *)
Definition touch (now : Z) (v : inode) : inode :=
  Inode (i_size v) (i_bytes v) (i_nlink v) (i_flags v) (i_atime v) now now (i_birth v) (i_uid v) (i_gid v) (i_perm v) (i_type v).
Definition set_nlink (n : Z) (v : inode) : inode :=
  Inode (i_size v) (i_bytes v) n (i_flags v) (i_atime v) (i_mtime v) (i_ctime v) (i_birth v) (i_uid v) (i_gid v) (i_perm v) (i_type v).
Definition set_ctime (now : Z) (v : inode) : inode :=
  Inode (i_size v) (i_bytes v) (i_nlink v) (i_flags v) (i_atime v) (i_mtime v) now (i_birth v) (i_uid v) (i_gid v) (i_perm v) (i_type v).
Definition set_atime (now : Z) (v : inode) : inode :=
  Inode (i_size v) (i_bytes v) (i_nlink v) (i_flags v) now (i_mtime v) (i_ctime v) (i_birth v) (i_uid v) (i_gid v) (i_perm v) (i_type v).
Definition set_space (size bytes : Z) (v : inode) : inode :=
  Inode size bytes (i_nlink v) (i_flags v) (i_atime v) (i_mtime v) (i_ctime v) (i_birth v) (i_uid v) (i_gid v) (i_perm v) (i_type v).

(** fs.rs:616-676 do_create, 1110-1121 create_ts_callback, 1645-1707 mkdir with its callback *)
Definition create (s : fs) (ts : nat -> Z) (parent i : Z) (t : ftype) (perm uid gid : Z) : option fs :=
  let now := ts 0%nat in
  let v := Inode 0 0 (match t with Dir => 2 | _ => 1 end) 0 now now now now uid gid perm t in
  let s1 := match t with
            | Dir => change s parent (fun p => touch (ts 1%nat) (set_nlink (u64 (i_nlink p + 1)) p))
            | _ => do_setattr s parent (times (ts 1%nat)) 0
            end in
  match s1 with
  | None => None
  | Some s1 => match zm_get i s1 with Some _ => None | None => Some (zm_set i v s1) end    (* assert inode_r.is_none() *)
  end.

(** fs.rs:1411-1460 link: the insertion of the inode with one more link, and do_setattr of its ctime, which gets the inode and inserts
    it, are joined futures on the same inode.  The function fixes none of the three orders of the insertion (I), the get (G) and the set (S).
    A get overtakes the insertion when another operation is reading the tree's root: the insertion then waits for the lock and the get does
    not (futures-locks grants reads while a writer waits).  GSI needs a lock that is not handed out in turn. *)
Inductive order := IGS | GIS | GSI.
Definition link (s : fs) (ts : nat -> Z) (o : order) (parent i : Z) : option fs :=
  match zm_get i s with
  | None => None
  | Some v =>
      let now := ts 0%nat in
      let more := set_nlink (u64 (i_nlink v + 1)) v in
      let last := match o with IGS => setattr_inode (ctime_only now) 0 more
                             | GIS => setattr_inode (ctime_only now) 0 v
                             | GSI => more end in
      do_setattr (zm_set i last s) parent (times now) 0
  end.

(** fs.rs:984-1033 do_unlink; saturating_sub *)
Definition do_unlink (s : fs) (now : Z) (active : bool) (i : Z) : option fs :=
  match zm_get i s with
  | None => None
  | Some v => let n := Z.max 0 (i_nlink v - 1) in
              if (0 <? n) || active then Some (zm_set i (set_ctime now (set_nlink n v)) s) else Some (zm_del i s)
  end.
(** fs.rs:2375-2413 unlink *)
Definition unlink (s : fs) (ts : nat -> Z) (active : bool) (parent i : Z) : option fs :=
  match do_unlink s (ts 1%nat) active i with Some s1 => do_setattr s1 parent (times (ts 0%nat)) 0 | None => None end.
(** fs.rs:772-807 do_rmdir; the subtraction is unchecked in release builds *)
Definition do_rmdir (s : fs) (now : Z) (parent i : Z) (dec : bool) : option fs :=
  let s1 := zm_del i s in
  if dec then change s1 parent (fun p => touch now (set_nlink (u64 (i_nlink p - 1)) p)) else Some s1.
(** fs.rs:2190-2222 rmdir *)
Definition rmdir (s : fs) (ts : nat -> Z) (parent i : Z) : option fs := do_rmdir s (ts 0%nat) parent i true.
(** fs.rs:2095-2187 rename, from step 3a on; [old] was at the destination *)
Definition rename (s : fs) (ts : nat -> Z) (parent newparent : Z) (isdir : bool) (old : option Z) : option fs :=
  let samedir := parent =? newparent in
  let s1 := match old with
            | Some v => if isdir then do_rmdir s (ts 2%nat) newparent v false else do_unlink s (ts 2%nat) false v
            | None => Some s
            end in
  match s1 with
  | None => None
  | Some s1 =>
      match change s1 parent (fun p => touch (ts 0%nat)
              (if isdir && (negb samedir || match old with Some _ => true | None => false end) then set_nlink (u64 (i_nlink p - 1)) p else p)) with
      | None => None
      | Some s2 =>
          if samedir then Some s2
          else change s2 newparent (fun p => touch (ts 1%nat)
                 (if isdir && match old with Some _ => false | None => true end then set_nlink (u64 (i_nlink p + 1)) p else p))
      end
  end.
(** fs.rs:2228-2253 setattr *)
Definition setattr (s : fs) (ts : nat -> Z) (i : Z) (a : sattr) (freed : Z) : option fs :=
  let a := match a_ctime a with
           | Some _ => a
           | None => SAttr (a_size a) (a_atime a) (a_mtime a) (Some (ts 0%nat)) (a_birth a) (a_perm a) (a_uid a) (a_gid a) (a_flags a)
           end in
  do_setattr s i a freed.
(** fs.rs:2416-2485 write of [len] bytes; [delta] is by how much the records grew.  record_size().unwrap() panics unless regular. *)
Definition write (s : fs) (ts : nat -> Z) (i off len delta : Z) : option fs :=
  match zm_get i s with
  | None => None
  | Some v => if is_reg (i_type v)
              then Some (zm_set i (touch (ts 0%nat) (set_space (Z.max (i_size v) (off + len)) (Z.max 0 (i_bytes v + delta)) v)) s)
              else None
  end.
(** fs.rs:567-599 deallocate *)
Definition deallocate (s : fs) (ts : nat -> Z) (i off len freed : Z) : option fs :=
  match zm_get i s with
  | None => None
  | Some v => if negb (is_reg (i_type v)) then None
              else let off := Z.min (i_size v) off in
                   let len := Z.min (Z.max 0 (i_size v - off)) len in
                   if 0 <? len then Some (zm_set i (touch (ts 0%nat) (set_space (i_size v) (Z.max 0 (i_bytes v - freed)) v)) s) else Some s
  end.
(** fs.rs:1810-1847 read *)
Definition read (s : fs) (ts : nat -> Z) (atime : bool) (i : Z) : option fs :=
  match zm_get i s with
  | None => None
  | Some v => if negb (is_reg (i_type v)) then None else Some (if atime then zm_set i (set_atime (ts 0%nat) v) s else s)
  end.
(** fs.rs:678-699 do_inactive, when the object has died *)
Definition reap (s : fs) (i : Z) : fs := zm_del i s.

(** fs.rs:1222-1262 do_getattr.  The mode is the type's bits or'ed with the permissions: fs_tree.rs:836-846, libc of FreeBSD. *)
Definition type_bits (t : ftype) : Z :=
  match t with Fifo => 4096 | Char _ => 8192 | Dir => 16384 | Block _ => 24576 | Reg _ => 32768 | Lnk _ => 40960 | Socket => 49152 end.
Record gattr := GAttr { g_size : Z; g_bytes : Z; g_atime : Z; g_mtime : Z; g_ctime : Z; g_birth : Z; g_mode : Z; g_nlink : Z;
  g_uid : Z; g_gid : Z; g_rdev : Z; g_blksize : Z; g_flags : Z }.
Definition getattr_inode (v : inode) : gattr :=
  GAttr (i_size v) (i_bytes v) (i_atime v) (i_mtime v) (i_ctime v) (i_birth v) (Z.lor (type_bits (i_type v)) (i_perm v)) (i_nlink v)
        (i_uid v) (i_gid v) (match i_type v with Char d | Block d => d | _ => 0 end)
        ((match i_type v with Reg r => 2 ^ r | _ => 4096 end) mod 2 ^ 32) (i_flags v).
Definition getattr (s : fs) (i : Z) : option gattr := option_map getattr_inode (zm_get i s).

(** bfffsd/fs.rs:135-172 FuseFs::do_getattr; [S_IFMT] is 0o170000, and Mode::perm the low 12 bits (fs.rs:420-432) *)
Inductive fkind := NamedPipe | CharDevice | Directory | BlockDevice | RegularFile | Symlink | SocketFile.
Record fattr := FAttr { f_size : Z; f_blocks : Z; f_atime : Z; f_mtime : Z; f_ctime : Z; f_kind : fkind; f_perm : Z; f_nlink : Z;
  f_uid : Z; f_gid : Z; f_rdev : Z; f_blksize : Z }.
Definition kind_of (bits : Z) : option fkind :=
  if bits =? 4096 then Some NamedPipe else if bits =? 8192 then Some CharDevice else if bits =? 16384 then Some Directory
  else if bits =? 24576 then Some BlockDevice else if bits =? 32768 then Some RegularFile else if bits =? 40960 then Some Symlink
  else if bits =? 49152 then Some SocketFile else None.
Definition fuse_attr (g : gattr) : option fattr :=
  match kind_of (Z.land (g_mode g) 61440) with
  | None => None
  | Some k => Some (FAttr (g_size g) (u64 (Z.shiftl (g_bytes g) 9)) (g_atime g) (g_mtime g) (g_ctime g) k (Z.land (g_mode g) 4095)
                          (g_nlink g mod 2 ^ 32) (g_uid g) (g_gid g) (g_rdev g mod 2 ^ 32) (g_blksize g))
  end.
