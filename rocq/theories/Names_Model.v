(** The name space of a file system: bfffs-core/src/fs.rs (do_create, mkdir, link, unlink, rename, rmdir, inactive, mount) on the
    directory hash tables of HTable_Model.v, and the dirloop check of bfffs/src/bin/bfffsd/fs.rs.

    The dataset is split by object and kind of key, which C32 justifies: for each object its directory entries, a finite list of
    (hash of the name, cell); for each object its inode; and the dying inodes of object 0.  Timestamps, permissions, extents and
    extended attributes are not modelled.  The futures that one operation joins are run in the order in which they are listed,
    which is the order in which they are first polled.  A panic is [None]. *)
From Verif Require Import Common HTable_Model.

Definition name := list Z.
Fixpoint name_eqb (a b : name) : bool :=
  match a, b with
  | [], [] => true
  | x :: a', y :: b' => (x =? y) && name_eqb a' b'
  | _, _ => false
  end.
Definition DOT : name := [46].
Definition DOTDOT : name := [46; 46].

(** Dirent, fs_tree.rs:415-421: the inode number and whether [dtype] is DT_DIR *)
Notation ent := (Z * bool)%type.
Definition dir := list (Z * @cell name ent).
Fixpoint dget (l : dir) (k : Z) : option (@cell name ent) :=
  match l with [] => None | (k', c) :: r => if k' =? k then Some c else dget r k end.
Definition dput (l : dir) (k : Z) (c : option (@cell name ent)) : dir :=
  let l' := filter (fun kc => negb (fst kc =? k)) l in
  match c with Some c => (k, c) :: l' | None => l' end.

(** Inode, fs_tree.rs:954- *)
Record inode := Inode { i_isdir : bool; i_nlink : Z }.
Record fs := Fs { ents : Z -> dir; inodes : Z -> option inode; dying : Z -> option Z; nexto : Z }.

Definition upd {A} (f : Z -> A) (k : Z) (x : A) : Z -> A := fun k' => if k' =? k then x else f k'.
Definition set_ents (s : fs) (d : Z) (l : dir) : fs := Fs (upd (ents s) d l) (inodes s) (dying s) (nexto s).
Definition set_inode (s : fs) (i : Z) (x : option inode) : fs := Fs (ents s) (upd (inodes s) i x) (dying s) (nexto s).
Definition set_dying (s : fs) (h : Z) (x : option Z) : fs := Fs (ents s) (inodes s) (upd (dying s) h x) (nexto s).
Definition set_next (s : fs) (n : Z) : fs := Fs (ents s) (inodes s) (dying s) n.

Inductive result := ROk (ino : Z) | RErr (errno : Z).
Definition ENOENT : Z := 2.
Definition EINVAL : Z := 22.
Definition ENOTEMPTY : Z := 66.

Section Ops.
(** [hash]: ObjKey::dir_entry, fs_tree.rs:128-139; [dhash]: ObjKey::dying_inode, fs_tree.rs:141-147 *)
Context (hash : name -> Z) (dhash : Z -> Z).

Definition dir_get (l : dir) (n : name) : res (name * ent) := ht_get name_eqb (dget l) (hash n) n.
Definition dir_insert (l : dir) (n : name) (e : ent) : res (option (name * ent)) * dir :=
  let '(r, d) := ht_insert name_eqb (dget l) (hash n) (n, e) in (r, dput l (hash n) (d (hash n))).
Definition dir_remove (l : dir) (n : name) : res (name * ent) * dir :=
  let '(r, d) := ht_remove name_eqb (dget l) (hash n) n in (r, dput l (hash n) (d (hash n))).

(** htable::insert into directory [d] *)
Definition de_insert (s : fs) (d : Z) (n : name) (e : ent) : option (option ent * fs) :=
  match dir_insert (ents s d) n e with
  | (Ok r, l) => Some (option_map snd r, set_ents s d l)
  | _ => None
  end.

(** the part of mkdir and rename that changes a directory's link count; a missing inode is an unwrap of None *)
Definition add_nlink (s : fs) (i : Z) (x : Z) : option fs :=
  match inodes s i with
  | Some v => Some (set_inode s i (Some (Inode (i_isdir v) (i_nlink v + x))))
  | None => None
  end.

(** Fs::do_create, fs.rs:616-676, for [isdir] false the kinds of file that are not directories, for [isdir] true Fs::mkdir,
    fs.rs:1647-1703.  The callback of non-directories touches the parent's timestamps, which unwraps its inode (fs.rs:817). *)
Definition do_create (s : fs) (p : Z) (n : name) (isdir : bool) : option (result * fs) :=
  let ino := nexto s in
  let s := set_next s (ino + 1) in
  match inodes s ino with
  | Some _ => None
  | None =>
      let s := set_inode s ino (Some (Inode isdir (if isdir then 2 else 1))) in
      match de_insert s p n (ino, isdir) with
      | Some (None, s) =>
          if isdir then
            match de_insert s ino DOT (ino, true) with
            | Some (_, s) => match de_insert s ino DOTDOT (p, true) with
                             | Some (_, s) => match add_nlink s p 1 with Some s => Some (ROk ino, s) | None => None end
                             | None => None
                             end
            | None => None
            end
          else match inodes s p with Some _ => Some (ROk ino, s) | None => None end
      | _ => None
      end
  end.

(** Fs::link, fs.rs:1411-1460.  The directory entry is inserted with [ds.insert], not with [htable::insert]. *)
Definition do_link (s : fs) (p i : Z) (n : name) : option (result * fs) :=
  match inodes s i with
  | None => None
  | Some v =>
      let s := set_inode s i (Some (Inode (i_isdir v) (i_nlink v + 1))) in
      let s := set_ents s p (dput (ents s p) (hash n) (Some (Single (n, (i, i_isdir v))))) in
      match inodes s p with Some _ => Some (ROk i, s) | None => None end
  end.

(** Fs::do_delete_inode, fs.rs:679-683, and the range_delete of do_rmdir, fs.rs:782-785 *)
Definition delete_object (s : fs) (i : Z) : fs := set_inode (set_ents s i []) i None.

(** Fs::do_unlink, fs.rs:984-1033; [saturating_sub] on the link count *)
Definition do_unlink (s : fs) (active : bool) (i : Z) : option fs :=
  match inodes s i with
  | None => None
  | Some v =>
      let nlink := if i_nlink v =? 0 then 0 else i_nlink v - 1 in
      if (0 <? nlink) || active then
        let s' := set_inode s i (Some (Inode (i_isdir v) nlink)) in
        if nlink =? 0 then
          match dying s (dhash i) with Some _ => None | None => Some (set_dying s' (dhash i) (Some i)) end
        else Some s'
      else Some (delete_object s i)
  end.

(** Fs::unlink, fs.rs:2377-2413.  [active] says whether the caller passed the file's FileData. *)
Definition unlink (s : fs) (p : Z) (n : name) (active : bool) : option (result * fs) :=
  match dir_remove (ents s p) n with
  | (Panic, _) => None
  | (NotFound, l) => Some (RErr ENOENT, set_ents s p l)
  | (Ok (_, (i, _)), l) =>
      match do_unlink (set_ents s p l) active i with
      | Some s => match inodes s p with Some _ => Some (ROk i, s) | None => None end
      | None => None
      end
  end.

(** Fs::do_inactive, fs.rs:686-698 *)
Definition inactive (s : fs) (i : Z) : option (result * fs) :=
  match dying s (dhash i) with
  | None => Some (ROk i, s)
  | Some i' => if i' =? i then Some (ROk i, delete_object (set_dying s (dhash i) None) i) else None
  end.

(** Fs::ok_to_rmdir, fs.rs:1749-1807: [Some true] to go on, [Some false] is ENOTEMPTY *)
Definition only_dots (c : @cell name ent) : bool :=
  match c with Single (n, _) => name_eqb n DOT || name_eqb n DOTDOT | _ => false end.
Definition ok_to_rmdir (s : fs) (i : Z) : option bool :=
  if forallb (fun kc => only_dots (snd kc)) (ents s i) then
    match inodes s i with
    | Some v => if i_isdir v && (i_nlink v =? 2) then Some true else None
    | None => None
    end
  else Some false.

(** Fs::do_rmdir, fs.rs:773-807 *)
Definition do_rmdir (s : fs) (p i : Z) (dec_nlink : bool) : option fs :=
  let s := delete_object s i in if dec_nlink then add_nlink s p (-1) else Some s.

(** Fs::rmdir, fs.rs:2189-2224 *)
Definition rmdir (s : fs) (p : Z) (n : name) : option (result * fs) :=
  match dir_get (ents s p) n with
  | Panic => None
  | NotFound => Some (RErr ENOENT, s)
  | Ok (_, (i, _)) =>
      match ok_to_rmdir s i with
      | None => None
      | Some false => Some (RErr ENOTEMPTY, s)
      | Some true =>
          match dir_remove (ents s p) n with
          | (Ok _, l) => match do_rmdir (set_ents s p l) p i true with Some s => Some (ROk i, s) | None => None end
          | _ => None
          end
      end
  end.

(** Fs::rename, fs.rs:2020-2179.  [fd] is the inode number of the source, [newino] that of the destination, if any, as the
    caller knows them. *)
Definition rename (s : fs) (p fd : Z) (n : name) (np : Z) (newino : option Z) (nn : name) : option (result * fs) :=
  if name_eqb n DOT || name_eqb n DOTDOT then Some (RErr EINVAL, s) else
  let samedir := p =? np in
  (* 0 *)
  let check := match dir_get (ents s np) nn with
               | Panic => None
               | NotFound => match newino with None => Some true | Some _ => None end
               | Ok (_, (di, isd)) =>
                   match newino with
                   | None => None
                   | Some w => if w =? di then (if isd then ok_to_rmdir s di else Some true) else None
                   end
               end in
  match check with
  | None => None
  | Some false => Some (RErr ENOTEMPTY, s)
  | Some true =>
      (* 1 *)
      match dir_remove (ents s p) n with
      | (Panic, _) => None
      | (NotFound, l) => Some (RErr ENOENT, set_ents s p l)
      | (Ok (_, (ino, isdir)), l) =>
          if negb (fd =? ino) then None else
          (* 2 *)
          match de_insert (set_ents s p l) np nn (ino, isdir) with
          | None => None
          | Some (old, s) =>
              let dst := match old with Some _ => true | None => false end in
              (* 3c *)
              match (if isdir && negb samedir then option_map snd (de_insert s ino DOTDOT (np, true)) else Some s) with
              | None => None
              | Some s =>
                  (* 3d *)
                  match (match old with
                         | Some (v, _) => if isdir then do_rmdir s np v false else do_unlink s false v
                         | None => Some s
                         end) with
                  | None => None
                  | Some s =>
                      (* 3a *)
                      match add_nlink s p (if isdir && (negb samedir || dst) then -1 else 0) with
                      | None => None
                      | Some s =>
                          (* 3b *)
                          match (if negb samedir then add_nlink s np (if isdir && negb dst then 1 else 0) else Some s) with
                          | Some s => Some (ROk ino, s)
                          | None => None
                          end
                      end
                  end
              end
          end
      end
  end.

(** Fs::new, fs.rs:1044-1094: the dying inodes are deleted, and the next object number is one more than the highest object in
    the tree.  All objects are below [nexto], so that is found by searching downwards.  The highest key is read concurrently
    with the deletion; [early] says that it is read first. *)
Definition exists_object (s : fs) (i : Z) : bool := match inodes s i with Some _ => true | None => false end.
Definition last_object (s : fs) : Z := match find (exists_object s) (rev (zrange 0 (nexto s))) with Some i => i | None => 0 end.
Definition dying_list (s : fs) : list Z :=
  filter (fun i => match dying s (dhash i) with Some j => j =? i | None => false end) (zrange 0 (nexto s)).
Definition reap (s : fs) : fs :=
  let s' := fold_left delete_object (dying_list s) s in Fs (ents s') (inodes s') (fun _ => None) (nexto s').
Definition mount (s : fs) (early : bool) : fs :=
  let s' := reap s in set_next s' (last_object (if early then s else s') + 1).

(** Database::create_fs, database/database.rs:491-573: the new file system's root directory *)
Definition new_fs : fs :=
  let s := Fs (fun _ => []) (fun _ => None) (fun _ => None) 2 in
  let s := set_inode s 1 (Some (Inode true 1)) in
  set_ents s 1 (dput (dput [] (hash DOT) (Some (Single (DOT, (1, true))))) (hash DOTDOT) (Some (Single (DOTDOT, (1, true))))).

(** Requests of the VFS *)
Inductive op :=
| Create (p : Z) (n : name)
| Mkdir (p : Z) (n : name)
| Link (p i : Z) (n : name)
| Unlink (p : Z) (n : name) (active : bool)
| Rmdir (p : Z) (n : name)
| Rename (p fd : Z) (n : name) (np : Z) (newino : option Z) (nn : name)
| Inactive (i : Z)
| Mount (early : bool).
Definition step (s : fs) (o : op) : option (result * fs) :=
  match o with
  | Create p n => do_create s p n false
  | Mkdir p n => do_create s p n true
  | Link p i n => do_link s p i n
  | Unlink p n a => unlink s p n a
  | Rmdir p n => rmdir s p n
  | Rename p fd n np newino nn => rename s p fd n np newino nn
  | Inactive i => inactive s i
  | Mount e => Some (ROk 0, mount s e)
  end.
Fixpoint run (s : fs) (l : list op) : option (list result * fs) :=
  match l with
  | [] => Some ([], s)
  | o :: r => match step s o with
              | None => None
              | Some (x, s1) => match run s1 r with Some (xs, s2) => Some (x :: xs, s2) | None => None end
              end
  end.
End Ops.

(** The dirloop check of FuseFs::rename, bfffs/src/bin/bfffsd/fs.rs:888-912.  [files i] is the [parent] of the cached file [i]
    ([Some None] for the root and for files that are not directories), [None] if [i] is not cached: a panic.  The loop ends
    only at a file without a parent; running out of fuel is [None] too. *)
Inductive verdict := Refuse | Accept.
Fixpoint dirloop (files : Z -> option (option Z)) (fuel : nat) (src i : Z) : option verdict :=
  match fuel with
  | O => None
  | S fu => match files i with
            | None => None
            | Some None => Some Accept
            | Some (Some q) => if src =? q then Some Refuse else dirloop files fu src q
            end
  end.
