(** File system B-tree keys: fs_tree.rs:80-330.  u64/u128 values are integers; the
    shifts and ors are those of the source. *)
From Verif Require Import Common.

(** fs_tree.rs:97-125.  PropertyName is its discriminant (property.rs:206-218). *)
Inductive objkey :=
| DirEntry (hash : Z)
| Inode
| Extent (offset : Z)
| ExtAttr (hash : Z)
| Property (name : Z)
| DyingInode (hash : Z).

(** fs_tree.rs:158-163 (and the constants 83-93) *)
Definition discriminant (k : objkey) : Z :=
  match k with
  | DirEntry _ => 0 | Inode => 1 | Extent _ => 2 | ExtAttr _ => 3 | Property _ => 4 | DyingInode _ => 5
  end.

(** fs_tree.rs:165-174 *)
Definition objkey_offset (k : objkey) : Z :=
  match k with
  | DirEntry x => x | Inode => 0 | Extent x => x | ExtAttr x => x | Property p => p | DyingInode x => x
  end.

(** fs_tree.rs:231-235 *)
Definition compose (object objtype offset : Z) : Z :=
  Z.lor (Z.lor (Z.shiftl object 64) (Z.shiftl objtype 56)) offset.

(** fs_tree.rs:220-228, the bitfield accessors *)
Definition key_object (k : Z) : Z := Z.land (Z.shiftr k 64) (Z.ones 64).
Definition key_objtype (k : Z) : Z := Z.land (Z.shiftr k 56) (Z.ones 8).
Definition key_offset (k : Z) : Z := Z.land k (Z.ones 56).

(** fs_tree.rs:309-313 *)
Definition fskey_new (object : Z) (k : objkey) : Z :=
  compose object (discriminant k) (objkey_offset k).

(** fs_tree.rs:239-244; a Range is (start, end) *)
Definition dirent_range (ino offset : Z) : Z * Z :=
  (compose ino (discriminant (DirEntry 0)) offset, compose ino (discriminant (DirEntry 0) + 1) 0).

(** fs_tree.rs:248-253 *)
Definition dying_inode_range : Z * Z :=
  (compose 0 (discriminant (DyingInode 0)) 0, compose 0 (discriminant (DyingInode 0) + 1) 0).

(** fs_tree.rs:257-262 *)
Definition extattr_range (ino : Z) : Z * Z :=
  (compose ino (discriminant (ExtAttr 0)) 0, compose ino (discriminant (ExtAttr 0) + 1) 0).

(** fs_tree.rs:266-293.  [None] is an unbounded end; included start, excluded end. *)
Definition extent_range (ino : Z) (lo hi : option Z) : Z * Z :=
  let d := discriminant (Extent 0) in
  ((match lo with Some s => compose ino d s | None => compose ino d 0 end),
   (match hi with Some e => compose ino d e | None => compose ino (d + 1) 0 end)).

(** fs_tree.rs:317-321.  [ino + 1] is u64 arithmetic: it wraps in release builds. *)
Definition obj_range (ino : Z) : Z * Z :=
  (compose ino 0 0, compose ((ino + 1) mod 2 ^ 64) 0 0).

(** fs_tree.rs:295-307 *)
Definition is_direntry (k : Z) : bool := key_objtype k =? discriminant (DirEntry 0).
Definition is_dying_inode (k : Z) : bool := key_objtype k =? discriminant (DyingInode 0).
Definition is_extattr (k : Z) : bool := key_objtype k =? discriminant (ExtAttr 0).
Definition is_inode (k : Z) : bool := key_objtype k =? discriminant Inode.
